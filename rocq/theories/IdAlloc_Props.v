(* Properties C01-C03: identifier allocation. *)
From Coq Require Import String ZArith Lia Bool List Permutation.
From Verif Require Import Base IdAlloc_Model.
Import ListNotations.
Open Scope Z_scope.

(* ------------------------------------------------------------------ *)
(* Specification: the identifiers in use after a trace of events.      *)

Definition live_step (acc : list Z) (e : id_event) : list Z :=
  match e with
  | EvReset => []
  | EvStatic l => l ++ acc
  | EvCounter _ _ => acc
  | EvAuto x => x :: acc
  end.

Definition live (es : list id_event) : list Z := fold_left live_step es [].

(* operations that neither forget identifiers nor restart the counter *)
Definition plain_op (o : id_op) : Prop :=
  match o with OpExtend _ => True | OpNext => True | _ => False end.

(* ------------------------------------------------------------------ *)
(* Lemmas about the loop                                                *)

Lemma next_loop_ok : forall fuel used n max x,
  next_loop fuel used n max = Ok x ->
  n <= x /\ ~ In x used /\ (forall y, n <= y < x -> In y used) /\ (x = n \/ x <= max).
Proof.
  induction fuel as [|f IH]; simpl; intros used n max x H; [discriminate|].
  destruct (memZ n used) eqn:E; simpl in H.
  - destruct (n + 1 >? max) eqn:G; [discriminate|].
    apply IH in H. destruct H as [H1 [H2 [H3 H4]]].
    apply memZ_true in E. rewrite Z.gtb_ltb, Z.ltb_ge in G.
    repeat split; auto; try lia.
    intros y Hy. destruct (Z.eq_dec y n); subst; auto. apply H3; lia.
  - inversion H; subst. apply memZ_false in E. repeat split; auto; try lia.
Qed.

Lemma next_loop_ranout : forall fuel used n max,
  next_loop fuel used n max = Err ERanOut ->
  In n used /\ (forall y, n <= y <= max -> In y used).
Proof.
  induction fuel as [|f IH]; simpl; intros used n max H; [discriminate|].
  destruct (memZ n used) eqn:E; simpl in H; [|discriminate].
  apply memZ_true in E. split; auto.
  destruct (n + 1 >? max) eqn:G.
  - rewrite Z.gtb_lt in G. intros y Hy. replace y with n by lia. auto.
  - apply IH in H. destruct H as [_ H]. intros y Hy.
    destruct (Z.eq_dec y n); subst; auto. apply H; lia.
Qed.

Lemma next_loop_fuel_incl : forall fuel used n max,
  next_loop fuel used n max = Err EFuel -> incl (zseq n fuel) used.
Proof.
  induction fuel as [|f IH]; intros used n max H.
  - intros x [].
  - cbn [next_loop] in H. destruct (memZ n used) eqn:E; simpl in H; [|discriminate].
    destruct (n + 1 >? max); [discriminate|].
    apply memZ_true in E. apply IH in H.
    intros x [Hx|Hx]; subst; auto.
Qed.

Lemma next_loop_no_fuel : forall used n max,
  next_loop (S (length used)) used n max <> Err EFuel.
Proof.
  intros used n max H. apply next_loop_fuel_incl in H.
  pose proof (NoDup_incl_length (zseq_NoDup (S (length used)) n) H) as L.
  rewrite zseq_length in L. lia.
Qed.

Lemma next_loop_err : forall fuel used n max e,
  next_loop fuel used n max = Err e -> e = ERanOut \/ e = EFuel.
Proof.
  induction fuel as [|f IH]; simpl; intros used n max e H.
  - inversion H; auto.
  - destruct (memZ n used); simpl in H; [|discriminate].
    destruct (n + 1 >? max); [inversion H; auto|]. eauto.
Qed.

Lemma get_next_id_ok : forall v x v',
  get_next_id v = Ok (x, v') ->
  exists n, iv_next v = Some n /\ n <= x /\ ~ In x (iv_used v) /\
    (forall y, n <= y < x -> In y (iv_used v)) /\ (x = n \/ x <= iv_max v) /\
    v' = mk_idvar (x :: iv_used v) (Some x) (iv_max v).
Proof.
  intros v x v' H. unfold get_next_id in H.
  destruct (iv_next v) as [n|]; [|discriminate].
  destruct (next_loop _ _ _ _) as [y|e] eqn:E; [|discriminate].
  inversion H; subst. apply next_loop_ok in E.
  exists n. intuition.
Qed.

(* ------------------------------------------------------------------ *)
(* The state tracks the live identifiers                                *)

Definition same_set (a b : list Z) : Prop := forall x, In x a <-> In x b.

Lemma live_snoc : forall es e, live (es ++ [e]) = live_step (live es) e.
Proof. intros; unfold live; now rewrite fold_left_app. Qed.

Lemma id_step_live : forall o v e v' acc,
  id_step o v = Ok (e, v') -> same_set (iv_used v) acc ->
  same_set (iv_used v') (live_step acc e).
Proof.
  intros o v e v' acc H S x.
  destruct o; simpl in H.
  - inversion H; subst; simpl; tauto.
  - inversion H; subst; simpl. rewrite !in_app_iff, (S x). tauto.
  - inversion H; subst; simpl. apply S.
  - destruct (get_next_id v) as [[y w]|] eqn:E; [|discriminate].
    inversion H; subst. apply get_next_id_ok in E.
    destruct E as [n [_ [_ [_ [_ [_ ->]]]]]]. simpl. rewrite (S x). tauto.
Qed.

Lemma id_run_fresh : forall h v acc pre x post,
  same_set (iv_used v) (fold_left live_step acc []) ->
  fst (id_run h v) = pre ++ EvAuto x :: post ->
  ~ In x (live (acc ++ pre)).
Proof.
  induction h as [|o r IH]; simpl; intros v acc pre x post S H.
  - destruct pre; discriminate.
  - destruct (id_step o v) as [[e v']|e] eqn:E.
    + destruct (id_run r v') as [es res] eqn:R. simpl in H.
      destruct pre as [|p pre]; simpl in H; inversion H; subst.
      * rewrite app_nil_r. destruct o; simpl in E; try discriminate.
        destruct (get_next_id v) as [[y w]|] eqn:G; [|discriminate].
        inversion E; subst. apply get_next_id_ok in G.
        destruct G as [n [_ [_ [G _]]]]. intros C. apply G. apply (S x). exact C.
      * assert (Hs : same_set (iv_used v') (fold_left live_step (acc ++ [p]) [])).
        { rewrite fold_left_app. simpl. eapply id_step_live; eauto. }
        specialize (IH v' (acc ++ [p]) pre x post Hs).
        rewrite R in IH. specialize (IH eq_refl). now rewrite <- app_assoc in IH.
    + destruct pre; discriminate.
Qed.

(* C01 *)
Theorem auto_ids_fresh : forall h pre x post,
  fst (id_run h empty_idvar) = pre ++ EvAuto x :: post ->
  ~ In x (live pre).
Proof.
  intros h pre x post H.
  apply (id_run_fresh h empty_idvar [] pre x post); auto.
  intros y; simpl; tauto.
Qed.

(* history: static 2,3; counter 1..5; three allocations with another static id in between *)
Example auto_ids_fresh_case :
  fst (id_run [OpExtend [2;3]; OpCounter 1 5; OpNext; OpExtend [4]; OpNext] empty_idvar)
  = [EvStatic [2;3]; EvCounter 1 5; EvAuto 1; EvStatic [4]] ++ EvAuto 5 :: [].
Proof. reflexivity. Qed.

(* Consequence in terms of observable ids: without resets all auto ids are pairwise
   different and differ from the static ids registered before them. *)
Definition autos (es : list id_event) : list Z :=
  flat_map (fun e => match e with EvAuto x => [x] | _ => [] end) es.

Definition no_reset (es : list id_event) : Prop := ~ In EvReset es.

Lemma live_mono : forall es acc x, no_reset es -> In x acc -> In x (fold_left live_step es acc).
Proof.
  induction es as [|e r IH]; simpl; intros acc x N H; auto.
  apply IH.
  - intros C; apply N; right; auto.
  - destruct e; simpl; auto.
    + exfalso; apply N; left; auto.
    + apply in_or_app; auto.
Qed.

Lemma autos_live : forall es acc x, no_reset es -> In x (autos es) -> In x (fold_left live_step es acc).
Proof.
  induction es as [|e r IH]; simpl; intros acc x N H; [contradiction|].
  assert (N' : no_reset r) by (intros C; apply N; right; auto).
  apply in_app_or in H. destruct H as [H|H].
  - destruct e; simpl in H; try contradiction. destruct H as [H|[]]; subst.
    apply live_mono; auto. simpl; auto.
  - apply IH; auto.
Qed.

Theorem auto_ids_pairwise_distinct : forall h es res,
  id_run h empty_idvar = (es, res) -> no_reset es -> NoDup (autos es).
Proof.
  intros h es res H N.
  assert (P : forall pre, (exists post, es = pre ++ post) -> NoDup (autos pre)).
  { induction pre as [|e pre IH] using rev_ind; intros [post Hp].
    - constructor.
    - unfold autos. rewrite flat_map_app. simpl. rewrite app_nil_r.
      assert (Hpre : NoDup (autos pre)).
      { apply IH. exists (e :: post). now rewrite <- app_assoc in Hp. }
      destruct e as [| | |y]; try (rewrite app_nil_r; exact Hpre).
      apply NoDup_app_intro; auto.
      + constructor; auto. constructor.
      + intros z Hz [Hy|[]]; subst z.
        apply (auto_ids_fresh h pre y post).
        * rewrite H. simpl. now rewrite Hp, <- app_assoc.
        * apply autos_live; auto. intros C; apply N. subst es.
          rewrite <- app_assoc. apply in_or_app; auto. }
  apply P. exists []. now rewrite app_nil_r.
Qed.

Example auto_ids_pairwise_case :
  exists es res, id_run [OpExtend [2]; OpCounter 1 9; OpNext; OpNext; OpNext] empty_idvar = (es, res)
    /\ no_reset es /\ autos es = [1;3;4].
Proof. eexists; eexists; split; [reflexivity|]; split; [|reflexivity].
  unfold no_reset; simpl; intuition discriminate. Qed.

(* ------------------------------------------------------------------ *)
(* C02 *)

Definition counter_inv (s m : Z) (v : idvar) : Prop :=
  iv_max v = m /\ exists n, iv_next v = Some n /\ s <= n <= m /\
    (forall y, s <= y < n -> In y (iv_used v)).

Lemma counter_inv_step : forall s m o v e v',
  plain_op o -> counter_inv s m v -> id_step o v = Ok (e, v') ->
  counter_inv s m v'.
Proof.
  intros s m o v e v' P [Hm [n [Hn [Hr Hu]]]] H.
  destruct o as [|l| |]; simpl in P; try contradiction; simpl in H.
  - inversion H; subst. split; simpl; auto. exists n; repeat split; simpl; try tauto; try lia; auto.
    intros y Hy. apply in_or_app; auto.
  - destruct (get_next_id v) as [[x w]|] eqn:E; [|discriminate]. inversion H; subst.
    apply get_next_id_ok in E. destruct E as [n' [Hn' [H1 [H2 [H3 [H4 ->]]]]]].
    rewrite Hn in Hn'; inversion Hn'; subst n'.
    split; simpl; auto. exists x; repeat split; auto; try lia.
    intros y Hy. destruct (Z_lt_ge_dec y n); [right; apply Hu; lia | right; apply H3; lia].
Qed.

Lemma counter_run_next : forall s m h v acc pre x post,
  Forall plain_op h -> counter_inv s m v -> same_set (iv_used v) (fold_left live_step acc []) ->
  fst (id_run h v) = pre ++ EvAuto x :: post ->
  s <= x <= m /\ forall y, s <= y < x -> In y (live (acc ++ pre)).
Proof.
  induction h as [|o r IH]; simpl; intros v acc pre x post F I S H.
  - destruct pre; discriminate.
  - inversion F; subst.
    destruct (id_step o v) as [[e v']|e] eqn:E; [|destruct pre; discriminate].
    destruct (id_run r v') as [es res] eqn:R. simpl in H.
    destruct pre as [|p pre]; simpl in H; inversion H; subst.
    + rewrite app_nil_r. destruct o; simpl in E; try discriminate.
      destruct (get_next_id v) as [[y w]|] eqn:G; [|discriminate]. inversion E; subst.
      apply get_next_id_ok in G. destruct G as [n' [Hn' [H1' [H2' [H3' [H4' _]]]]]].
      destruct I as [Hm [n [Hn [Hr Hu]]]]. rewrite Hn in Hn'; inversion Hn'; subst n'.
      split; [lia|]. intros y Hy. apply (S y).
      destruct (Z_lt_ge_dec y n); [apply Hu; lia | apply H3'; lia].
    + assert (Hs : same_set (iv_used v') (fold_left live_step (acc ++ [p]) [])).
      { rewrite fold_left_app. simpl. eapply id_step_live; eauto. }
      assert (I' : counter_inv s m v') by (eapply counter_inv_step; eauto).
      specialize (IH v' (acc ++ [p]) pre x post H3 I' Hs).
      rewrite R in IH. specialize (IH eq_refl). now rewrite <- app_assoc in IH.
Qed.

Lemma id_run_live_gen : forall h v acc es v',
  same_set (iv_used v) (fold_left live_step acc []) ->
  id_run h v = (es, Ok v') -> same_set (iv_used v') (live (acc ++ es)).
Proof.
  induction h as [|o r IH]; simpl; intros v acc es v' S H.
  - inversion H; subst. now rewrite app_nil_r.
  - destruct (id_step o v) as [[e v1]|e] eqn:E; [|discriminate].
    destruct (id_run r v1) as [es1 res] eqn:R. inversion H; subst.
    assert (Hs : same_set (iv_used v1) (fold_left live_step (acc ++ [e]) [])).
    { rewrite fold_left_app. simpl. eapply id_step_live; eauto. }
    specialize (IH v1 (acc ++ [e]) es1 v' Hs R). now rewrite <- app_assoc in IH.
Qed.

Lemma counter_inv_run : forall s m h v es v',
  Forall plain_op h -> counter_inv s m v -> id_run h v = (es, Ok v') -> counter_inv s m v'.
Proof.
  induction h as [|o r IH]; simpl; intros v es v' F I H.
  - inversion H; subst; auto.
  - inversion F; subst. destruct (id_step o v) as [[e v1]|e] eqn:E; [|discriminate].
    destruct (id_run r v1) as [es1 res] eqn:R. inversion H; subst.
    apply (IH v1 es1 v'); auto. apply (counter_inv_step s m o v e v1); auto.
Qed.

Lemma counter_inv_init : forall s m v, s <= m -> counter_inv s m (set_id_counter s m v).
Proof.
  intros s m v H. split; simpl; auto. exists s; repeat split; auto; lia.
Qed.

Theorem auto_ids_smallest_in_range : forall h0 es0 v0 s m h pre x post,
  id_run h0 empty_idvar = (es0, Ok v0) ->
  s <= m ->
  Forall plain_op h ->
  fst (id_run h (set_id_counter s m v0)) = pre ++ EvAuto x :: post ->
  s <= x <= m
  /\ ~ In x (live (es0 ++ pre))
  /\ (forall y, s <= y < x -> In y (live (es0 ++ pre))).
Proof.
  intros h0 es0 v0 s m h pre x post H0 L F H.
  assert (S : same_set (iv_used (set_id_counter s m v0)) (fold_left live_step es0 [])).
  { simpl. change es0 with ([] ++ es0). apply (id_run_live_gen h0 empty_idvar []); auto.
    intros y; simpl; tauto. }
  destruct (counter_run_next s m h _ es0 pre x post F (counter_inv_init s m v0 L) S H) as [A B].
  repeat split; try tauto; try lia; auto.
  eapply id_run_fresh; eauto.
Qed.

Example auto_ids_smallest_case :
  exists es0 v0, id_run [OpExtend [10;12]] empty_idvar = (es0, Ok v0) /\
  fst (id_run [OpNext; OpNext; OpExtend [14]; OpNext] (set_id_counter 10 20 v0))
  = [EvAuto 11; EvAuto 13; EvStatic [14]] ++ EvAuto 15 :: [].
Proof. eexists; eexists; split; reflexivity. Qed.

(* The allocator fails exactly when the range is exhausted *)
Theorem allocation_fails_iff_range_full : forall h0 es0 v0 s m h es v,
  id_run h0 empty_idvar = (es0, Ok v0) ->
  s <= m ->
  Forall plain_op h ->
  id_run h (set_id_counter s m v0) = (es, Ok v) ->
  ((exists e, get_next_id v = Err e) <-> (forall y, s <= y <= m -> In y (live (es0 ++ es))))
  /\ (forall e, get_next_id v = Err e -> e = ERanOut).
Proof.
  intros h0 es0 v0 s m h es v H0 L F H.
  assert (S0 : same_set (iv_used (set_id_counter s m v0)) (fold_left live_step es0 [])).
  { simpl. change es0 with ([] ++ es0). apply (id_run_live_gen h0 empty_idvar []); auto.
    intros y; simpl; tauto. }
  pose proof (id_run_live_gen h _ es0 es v S0 H) as S.
  pose proof (counter_inv_run s m h _ es v F (counter_inv_init s m v0 L) H) as [Hm [n [Hn [Hr Hu]]]].
  assert (Herr : forall e, get_next_id v = Err e -> e = ERanOut).
  { intros e He. unfold get_next_id in He. rewrite Hn in He.
    destruct (next_loop _ _ _ _) as [x|e'] eqn:E; [discriminate|]. inversion He; subst.
    destruct (next_loop_err _ _ _ _ _ E) as [->| ->]; auto.
    exfalso; eapply next_loop_no_fuel; eauto. }
  split; auto. split.
  - intros [e He]. pose proof (Herr e He); subst e.
    unfold get_next_id in He. rewrite Hn in He.
    destruct (next_loop _ _ _ _) as [x|e'] eqn:E; [discriminate|]. inversion He; subst e'.
    apply next_loop_ranout in E. destruct E as [E1 E2].
    intros y Hy. apply (S y).
    destruct (Z_lt_ge_dec y n); [apply Hu; lia | apply E2; lia].
  - intros A. destruct (get_next_id v) as [[x v']|e] eqn:E; [|eauto].
    exfalso. apply get_next_id_ok in E. destruct E as [n' [Hn' [H1 [H2 [H3 [H4 _]]]]]].
    rewrite Hn in Hn'; inversion Hn'; subst n'.
    apply H2. apply (S x). apply A. lia.
Qed.

Example allocation_fails_case :
  exists es v, id_run [OpNext; OpNext] (set_id_counter 5 6 empty_idvar) = (es, Ok v)
    /\ get_next_id v = Err ERanOut.
Proof. eexists; eexists; split; reflexivity. Qed.

(* Without start <= max the range is not respected: the first value is not checked. *)
Theorem auto_id_above_max_refuted :
  exists s m x v, get_next_id (set_id_counter s m empty_idvar) = Ok (x, v) /\ m < x.
Proof. exists 5000, 4094, 5000. eexists. split; [reflexivity | lia]. Qed.

(* ------------------------------------------------------------------ *)
(* C03: node ids *)

(* the static ids of a node list *)
Definition statics (ns : list node) : list Z :=
  flat_map (fun n => match snd n with Some i => [i] | None => [] end) ns.

Lemma reserve_static_ok : forall ns v v',
  reserve_static ns v = ([], v') ->
  NoDup (statics ns) /\ (forall x, In x (statics ns) -> ~ In x (iv_used v)) /\
  (forall x, In x (iv_used v') <-> In x (statics ns) \/ In x (iv_used v)) /\
  iv_max v' = iv_max v.
Proof.
  induction ns as [|[nm [i|]] r IH]; simpl; intros v v' H.
  - inversion H; subst. repeat split; try constructor; simpl; tauto.
  - unfold reserve_id in H. destruct (is_id_used v i) eqn:U.
    + destruct (reserve_static r v); discriminate.
    + destruct (reserve_static r (extend_id_set [i] v)) as [errs v2] eqn:R.
      inversion H; subst. apply IH in R. destruct R as [R1 [R2 [R3 R4]]].
      unfold is_id_used in U. apply memZ_false in U. simpl in *.
      repeat split.
      * constructor; auto. intros C. apply (R2 i C). simpl; auto.
      * intros x [Hx|Hx]; subst; auto. intros C. apply (R2 x Hx). simpl; auto.
      * rewrite R3. simpl. tauto.
      * rewrite R3. simpl. tauto.
      * exact R4.
  - apply IH; auto.
Qed.

(* a node list with duplicate static ids, or static ids already reserved, is rejected *)
Lemma reserve_static_errs : forall ns v errs v',
  reserve_static ns v = (errs, v') ->
  NoDup (statics ns) -> (forall x, In x (statics ns) -> ~ In x (iv_used v)) -> errs = [].
Proof.
  induction ns as [|[nm [i|]] r IH]; simpl; intros v errs v' H ND D.
  - now inversion H.
  - unfold reserve_id in H. inversion ND; subst.
    destruct (is_id_used v i) eqn:U.
    + apply memZ_true in U. exfalso; apply (D i); auto.
    + destruct (reserve_static r (extend_id_set [i] v)) as [errs2 v2] eqn:R.
      inversion H; subst. eapply IH; eauto.
      intros x Hx C. simpl in C. destruct C as [C|C]; subst; auto. apply (D x); auto.
  - eapply IH; eauto.
Qed.

Lemma assign_ids_spec : forall ns v l,
  assign_ids ns v = Ok l -> counter_inv 1 max_node_id v ->
  (forall x, In x (statics ns) -> In x (iv_used v)) -> NoDup (statics ns) ->
  map fst l = map fst ns /\
  (forall nm i x, In ((nm, Some i), (nm, x)) (combine ns l) -> x = i) /\
  Forall2 (fun (n : node) y => fst n = fst y /\ (forall i, snd n = Some i -> snd y = i)) ns l /\
  NoDup (map snd l) /\
  (forall n y, In (n, y) (combine ns l) -> snd n = None ->
     1 <= snd y <= max_node_id /\ ~ In (snd y) (iv_used v)) /\
  (forall x, In x (map snd l) -> In x (statics ns) \/ ~ In x (iv_used v)).
Proof.
  induction ns as [|[nm [i|]] r IH]; cbn [assign_ids statics flat_map snd]; intros v l H C S ND.
  - inversion H; subst. simpl. repeat split; try constructor; simpl; try tauto.
  - destruct (assign_ids r v) as [l'|] eqn:E; [|discriminate]. inversion H; subst.
    inversion ND as [|? ? Hni NDr]; subst.
    destruct (IH v l' E C) as [H1 [H2 [H3 [H4 [H5 H6]]]]]; auto.
    { intros x Hx; apply S; right; auto. }
    assert (Hi : ~ In i (map snd l')).
    { intros Hin. destruct (H6 i Hin) as [Q|Q]; [contradiction|]. apply Q, S; left; auto. }
    split; [simpl; now f_equal|]. split.
    { intros nm' i' x [Hx|Hx]; [inversion Hx; subst; auto | eapply H2; eauto]. }
    split. { constructor; auto. simpl. split; auto. intros i' Hi'; congruence. }
    split. { simpl. constructor; auto. }
    split. { intros n y [Hny|Hny] Hnone; [inversion Hny; subst; discriminate | eapply H5; eauto]. }
    { intros x [Hx|Hx]; [left; left; auto|]. simpl. destruct (H6 x Hx); auto. }
  - destruct (get_next_id v) as [[x v']|] eqn:G; [|discriminate].
    destruct (assign_ids r v') as [l'|] eqn:E; [|discriminate]. inversion H; subst.
    assert (C' : counter_inv 1 max_node_id v').
    { apply (counter_inv_step 1 max_node_id OpNext v (EvAuto x)); simpl; auto. now rewrite G. }
    assert (G' := G). apply get_next_id_ok in G'.
    destruct G' as [n [Hn [G1 [G2 [G3 [G4 Gv]]]]]].
    assert (Rx : 1 <= x <= max_node_id).
    { destruct C as [Cm [n' [Cn [Cr _]]]]. rewrite Hn in Cn; inversion Cn; subst n'. lia. }
    destruct (IH v' l' E C') as [H1 [H2 [H3 [H4 [H5 H6]]]]].
    { intros y Hy. rewrite Gv. simpl. right. apply S. exact Hy. }
    { exact ND. }
    assert (Hnx : ~ In x (map snd l')).
    { intros Hin. destruct (H6 x Hin) as [Q|Q].
      - apply G2. apply S. exact Q.
      - apply Q. rewrite Gv. simpl; auto. }
    split; [simpl; now f_equal|]. split.
    { intros nm' i' y [Hy|Hy]; [inversion Hy | eapply H2; eauto]. }
    split. { constructor; auto. simpl. split; auto. intros i' Hi'; discriminate. }
    split. { simpl. constructor; auto. }
    split.
    { intros n0 y [Hny|Hny] Hnone.
      - inversion Hny; subst. simpl. split; auto.
      - destruct (H5 n0 y Hny Hnone) as [Q1 Q2]. split; auto.
        intros Hin; apply Q2. rewrite Gv. simpl; auto. }
    { intros y [Hy|Hy]; [subst; right; auto|]. destruct (H6 y Hy) as [Q|Q]; auto.
      right. intros Hin; apply Q. rewrite Gv. simpl; auto. }
Qed.

(* C03, success: ids are unique, user ids are kept, automatic ids are in range and avoid all
   reserved ids. [reserved] are the ids registered by other code before node transformation
   (gateway ids). *)
Theorem node_ids_unique : forall ns reserved l,
  node_ids ns (extend_id_set reserved empty_idvar) = Ok l ->
  Forall2 (fun (n : node) y => fst y = fst n /\ (forall i, snd n = Some i -> snd y = i)) ns l
  /\ NoDup (map snd l)
  /\ (forall n y, In (n, y) (combine ns l) -> snd n = None ->
        1 <= snd y <= 250 /\ ~ In (snd y) reserved /\ ~ In (snd y) (statics ns))
  /\ (forall y, In y l -> ~ In (snd y) reserved).
Proof.
  intros ns reserved l H. unfold node_ids in H.
  destruct (reserve_static ns (extend_id_set reserved empty_idvar)) as [errs v1] eqn:R.
  destruct errs; [|discriminate].
  destruct (assign_ids ns (set_id_counter 1 max_node_id v1)) as [l'|] eqn:A; [|discriminate].
  inversion H; subst l'. apply reserve_static_ok in R. destruct R as [R1 [R2 [R3 R4]]].
  simpl in R2, R3. rewrite app_nil_r in R2.
  assert (R3' : forall x, In x (iv_used v1) <-> In x (statics ns) \/ In x reserved).
  { intros x; rewrite R3, app_nil_r. tauto. }
  apply assign_ids_spec in A; auto.
  - destruct A as [H1 [H2 [H3 [H4 [H5 H6]]]]]. split; [|split; [|split]]; auto.
    + clear - H3. induction H3; constructor; auto. destruct H as [Ha Hb]; split; auto.
    + intros n y Hny Hnone. destruct (H5 n y Hny Hnone) as [Q1 Q2]. simpl in Q2.
      unfold max_node_id in Q1. split; auto. split; intros C; apply Q2; apply R3'; auto.
    + intros y Hy Hr. assert (Hin : In (snd y) (map snd l)) by now apply in_map.
      destruct (H6 _ Hin) as [Q|Q].
      * apply (R2 _ Q). auto.
      * apply Q. simpl. apply R3'; auto.
  - apply counter_inv_init. unfold max_node_id; lia.
  - intros x Hx. simpl. apply R3'; auto.
Qed.

Example node_ids_case :
  node_ids [("r1"%string, None); ("r2"%string, Some 1); ("r3"%string, None); ("r4"%string, Some 3)]
           (extend_id_set [2] empty_idvar)
  = Ok [("r1"%string, 4); ("r2"%string, 1); ("r3"%string, 5); ("r4"%string, 3)].
Proof. reflexivity. Qed.

(* C03, failure: the duplicate-id error is reported iff two user ids coincide or a user id is
   already reserved; the only other failure is running out of the 250 ids. *)
Theorem node_ids_duplicate_reported : forall ns reserved,
  (exists names, node_ids ns (extend_id_set reserved empty_idvar) = Err (DuplicateStatic names))
  <-> ~ (NoDup (statics ns) /\ (forall x, In x (statics ns) -> ~ In x reserved)).
Proof.
  intros ns reserved. unfold node_ids.
  destruct (reserve_static ns (extend_id_set reserved empty_idvar)) as [errs v1] eqn:R.
  destruct errs as [|e errs].
  - pose proof (reserve_static_ok _ _ _ R) as [R1 [R2 [R3 R4]]]. simpl in R2. rewrite app_nil_r in R2.
    split.
    + intros [names H]. destruct (assign_ids _ _); discriminate.
    + intros H; exfalso; apply H; auto.
  - split.
    + intros _ [ND D]. 
      assert (Q : e :: errs = []); [|discriminate].
      eapply reserve_static_errs; eauto. simpl. now rewrite app_nil_r.
    + intros _; eauto.
Qed.

Lemma get_next_id_error : forall v e,
  counter_inv 1 max_node_id v -> get_next_id v = Err e ->
  e = ERanOut /\ forall y, 1 <= y <= 250 -> In y (iv_used v).
Proof.
  intros v e [Cm [n [Cn [Cr Cu]]]] G.
  unfold get_next_id in G. rewrite Cn in G.
  destruct (next_loop _ _ _ _) as [x|e2] eqn:E; [discriminate|]. inversion G; subst e2.
  destruct (next_loop_err _ _ _ _ _ E) as [->| ->].
  2:{ exfalso; eapply next_loop_no_fuel; eauto. }
  split; auto. apply next_loop_ranout in E. destruct E as [_ E2]. rewrite Cm in E2.
  unfold max_node_id in *. intros y Hy.
  destruct (Z_lt_ge_dec y n); [apply Cu; lia | apply E2; lia].
Qed.

(* A topology where nodes plus reserved ids need at most 250 ids is never rejected. *)
Lemma reserve_static_length : forall ns v errs v',
  reserve_static ns v = (errs, v') -> (length (iv_used v') <= length (iv_used v) + length (statics ns))%nat.
Proof.
  induction ns as [|[nm [i|]] r IH]; simpl; intros v errs v' H.
  - inversion H; subst; lia.
  - unfold reserve_id in H. destruct (is_id_used v i).
    + destruct (reserve_static r v) eqn:E. inversion H; subst. apply IH in E. lia.
    + destruct (reserve_static r (extend_id_set [i] v)) eqn:E. inversion H; subst.
      apply IH in E. simpl in E. lia.
  - eauto.
Qed.

Lemma statics_autos_length : forall ns : list node,
  (length (statics ns) + length (filter (fun n => match snd n with None => true | _ => false end) ns) = length ns)%nat.
Proof. induction ns as [|[nm [i|]] r IH]; simpl in *; lia. Qed.

Theorem node_ids_succeed_when_enough_ids : forall ns reserved,
  NoDup (statics ns) -> (forall x, In x (statics ns) -> ~ In x reserved) ->
  (length ns + length reserved <= 250)%nat ->
  exists l, node_ids ns (extend_id_set reserved empty_idvar) = Ok l.
Proof.
  intros ns reserved ND D L. unfold node_ids.
  destruct (reserve_static ns (extend_id_set reserved empty_idvar)) as [errs v1] eqn:R.
  assert (E : errs = []).
  { eapply reserve_static_errs; eauto. simpl. now rewrite app_nil_r. }
  subst errs.
  destruct (assign_ids ns (set_id_counter 1 max_node_id v1)) as [l|e] eqn:A; [eauto|].
  exfalso.
  assert (CI : counter_inv 1 max_node_id (set_id_counter 1 max_node_id v1)).
  { apply counter_inv_init. unfold max_node_id; lia. }
  (* at the failing call every one of the 250 ids is used, but one id is still missing *)
  assert (Strong : forall ns v e, counter_inv 1 max_node_id v -> assign_ids ns v = Err e ->
    (250 + 1 <= length (iv_used v) +
       length (filter (fun n : node => match snd n with None => true | _ => false end) ns))%nat).
  { clear. induction ns as [|[nm [i|]] r IH]; cbn [assign_ids filter snd]; intros v e C H; [discriminate| |].
    - destruct (assign_ids r v) eqn:E; [discriminate|]. eauto.
    - destruct (get_next_id v) as [[x v']|e'] eqn:G.
      + assert (C' : counter_inv 1 max_node_id v').
        { apply (counter_inv_step 1 max_node_id OpNext v (EvAuto x)); simpl; auto. now rewrite G. }
        destruct (assign_ids r v') as [l|e2] eqn:E; [discriminate|].
        specialize (IH v' e2 C' E). apply get_next_id_ok in G.
        destruct G as [n [_ [_ [_ [_ [_ Gv]]]]]]. rewrite Gv in IH. simpl in *. lia.
      + destruct (get_next_id_error v e' C G) as [_ Hf].
        assert (Full : incl (zseq 1 250) (iv_used v)).
        { intros y Hy. apply zseq_In in Hy. apply Hf. lia. }
        pose proof (NoDup_incl_length (zseq_NoDup 250 1) Full) as LL.
        rewrite zseq_length in LL. cbn [length]. lia. }
  specialize (Strong _ _ _ CI A).
  apply reserve_static_length in R. cbn [iv_used set_id_counter extend_id_set empty_idvar] in *.
  rewrite app_nil_r in R.
  pose proof (statics_autos_length ns) as Q. unfold node in *. lia.
Qed.

Example node_ids_succeed_case : forall a b : string,
  exists l, node_ids [(a, None); (b, Some 7)] (extend_id_set [1] empty_idvar) = Ok l.
Proof.
  intros a b. apply node_ids_succeed_when_enough_ids; [| | simpl; lia].
  - constructor; simpl; auto; constructor.
  - intros x [<-|[]] [H|[]]. discriminate H.
Qed.

(* a duplicate user id is rejected *)
Example node_ids_duplicate_case :
  node_ids [("a"%string, Some 7); ("b"%string, Some 7)] (extend_id_set [] empty_idvar)
  = Err (DuplicateStatic ["b"%string]).
Proof. reflexivity. Qed.

Print Assumptions auto_ids_fresh.
Print Assumptions auto_ids_pairwise_distinct.
Print Assumptions auto_ids_smallest_in_range.
Print Assumptions allocation_fails_iff_range_full.
Print Assumptions auto_id_above_max_refuted.
Print Assumptions node_ids_unique.
Print Assumptions node_ids_duplicate_reported.
Print Assumptions node_ids_succeed_when_enough_ids.
