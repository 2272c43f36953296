(* Properties of attribute namespaces and of the list of valid attributes (Valid_Model). *)
From Coq Require Import String Ascii ZArith Lia Bool List.
From Verif Require Import Base Box_Model Box_Props Types_Model Valid_Model.
Import ListNotations.
Local Open Scope string_scope.
Local Open Scope list_scope.

(* ------------------------------------------------------------------ *)
(* Specification                                                        *)

(* namespace [y] of the attribute definitions asks for namespace [x], which is defined *)
Definition leads (attributes : dict val) (y x : string) : Prop :=
  exists d, dget y attributes = Some (VDict d) /\ In x (strings_at "_namespace" d) /\ In x (dkeys attributes).

(* the namespaces that matter for a list of namespaces: the first one, the others that are defined, and everything these
   ask for *)
Inductive reaches (attributes : dict val) (l : list string) : string -> Prop :=
| R_first : forall x r, l = x :: r -> reaches attributes l x
| R_given : forall x, In x l -> In x (dkeys attributes) -> reaches attributes l x
| R_more : forall y x, reaches attributes l y -> leads attributes y x -> reaches attributes l x.

Inductive leads_many (attributes : dict val) : string -> string -> Prop :=
| L_one : forall y x, leads attributes y x -> leads_many attributes y x
| L_more : forall y z x, leads attributes y z -> leads_many attributes z x -> leads_many attributes y x.

(* ------------------------------------------------------------------ *)

Lemma leads_iff : forall attributes y x v, dget y attributes = Some v ->
  (leads attributes y x <-> In x (strings_at "_namespace" (entries v)) /\ In x (dkeys attributes)).
Proof.
  intros attributes y x v D. unfold leads. split.
  - intros [d [E H]]. rewrite D in E. injection E as ->. exact H.
  - intros [H I]. destruct v as [| | | | |d]; cbn [entries] in H; try (cbn in H; contradiction). exists d. auto.
Qed.

Lemma loop_nil : forall n first attributes acc, namespaces_loop n first attributes [] acc = Some acc.
Proof. intros [|n]; reflexivity. Qed.

Definition add_new (x : string) (acc : list string) : list string := if memS x acc then acc else acc ++ [x].

Lemma add_new_In : forall x y acc, In y (add_new x acc) <-> In y acc \/ y = x.
Proof.
  intros x y acc. unfold add_new. destruct (memS x acc) eqn:M.
  - apply memS_true in M. split; [auto|]. intros [H|H]; [auto|]. now subst.
  - rewrite in_app_iff. cbn [In]. split.
    + intros [H|[H|[]]]; [now left|right; now symmetry].
    + intros [H|H]; [now left|right; left; now symmetry].
Qed.

Lemma add_new_NoDup : forall x acc, NoDup acc -> NoDup (add_new x acc).
Proof.
  intros x acc N. unfold add_new. destruct (memS x acc) eqn:M; auto. apply memS_false in M.
  apply NoDup_app_intro; [auto|constructor; [intros []|constructor]|]. intros y Y [<-|[]]. contradiction.
Qed.

Lemma add_new_hd : forall x acc, hd_error (add_new x acc) = match acc with [] => Some x | y :: _ => Some y end.
Proof. intros x [|y acc]; unfold add_new; [reflexivity|]. destruct (memS x (y :: acc)); reflexivity. Qed.

Lemma loop_S : forall n first attributes ns r acc,
  namespaces_loop (S n) first attributes (ns :: r) acc =
  match dget ns attributes with
  | None => namespaces_loop n false attributes r (if first then add_new ns acc else acc)
  | Some v => namespaces_loop n false attributes (r ++ strings_at "_namespace" (entries v)) (add_new ns acc)
  end.
Proof. reflexivity. Qed.

Lemma loop_spec : forall n attributes todo acc res (P : string -> Prop),
  namespaces_loop n false attributes todo acc = Some res -> NoDup acc ->
  (forall x, In x acc -> P x) -> (forall x, In x todo -> In x (dkeys attributes) -> P x) ->
  (forall y x, P y -> leads attributes y x -> P x) ->
  (forall y x, In y acc -> leads attributes y x -> In x acc \/ In x todo) ->
  NoDup res /\ incl acc res /\ (forall x, In x todo -> In x (dkeys attributes) -> In x res) /\ (forall x, In x res -> P x) /\
  (forall y x, In y res -> leads attributes y x -> In x res) /\ (acc <> [] -> hd_error res = hd_error acc).
Proof.
  induction n as [|n IH]; intros attributes todo acc res P H N Pa Pt Pc C.
  - destruct todo as [|ns r]; [|discriminate]. injection H as <-. split; [auto|split; [apply incl_refl|split; [intros x []|split; [auto|split; [|auto]]]]].
    intros y x Y L. destruct (C y x Y L) as [X|[]]. auto.
  - destruct todo as [|ns r].
    { rewrite loop_nil in H. injection H as <-. split; [auto|split; [apply incl_refl|split; [intros x []|split; [auto|split; [|auto]]]]].
      intros y x Y L. destruct (C y x Y L) as [X|[]]. auto. }
    rewrite loop_S in H. destruct (dget ns attributes) as [v|] eqn:D.
    + assert (K : In ns (dkeys attributes)) by (eapply dget_Some_key; eauto).
      destruct (IH attributes _ _ res P H) as [A1 [A2 [A3 [A4 [A5 A6]]]]].
      * now apply add_new_NoDup.
      * intros x X. apply add_new_In in X. destruct X as [X| ->]; [auto|]. apply Pt; [now left|auto].
      * intros x X I. apply in_app_or in X. destruct X as [X|X]; [apply Pt; [now right|auto]|].
        apply (Pc ns); [apply Pt; [now left|auto]|]. apply (leads_iff attributes ns x v D). auto.
      * auto.
      * intros y x Y L. apply add_new_In in Y. destruct Y as [Y| ->].
        -- destruct (C y x Y L) as [X|[<-|X]].
           ++ left. apply add_new_In. auto.
           ++ left. apply add_new_In. auto.
           ++ right. apply in_or_app. auto.
        -- right. apply in_or_app. right. now apply (leads_iff attributes ns x v D).
      * split; [auto|split; [|split; [|split; [auto|split; [auto|]]]]].
        -- intros x X. apply A2. apply add_new_In. auto.
        -- intros x [<-|X] I; [apply A2; apply add_new_In; auto|]. apply A3; [apply in_or_app; auto|auto].
        -- intros Q. rewrite A6, add_new_hd; [destruct acc; [congruence|reflexivity]|].
           intros E. assert (X : In ns (add_new ns acc)) by (apply add_new_In; auto). rewrite E in X. contradiction.
    + assert (K : ~ In ns (dkeys attributes)) by (now apply dget_None).
      destruct (IH attributes r acc res P H) as [A1 [A2 [A3 [A4 [A5 A6]]]]]; auto.
      * intros x X. apply Pt. now right.
      * intros y x Y L. destruct (C y x Y L) as [X|[<-|X]]; auto. destruct L as [d [_ [_ L]]]. contradiction.
      * split; [auto|split; [auto|split; [|auto]]]. intros x [<-|X] I; [contradiction|auto].
Qed.

Lemma loop_exact : forall n attributes l ns, namespaces_loop (S n) true attributes l [] = Some ns ->
  NoDup ns /\ (forall x, In x ns <-> reaches attributes l x) /\ hd_error ns = hd_error l.
Proof.
  intros n attributes l ns H.
  destruct l as [|x r].
  { rewrite loop_nil in H. injection H as <-. split; [constructor|split; [|reflexivity]].
    intros x. split; [intros []|]. intros R. induction R as [x r E|x I _|y x _ IH _]; [discriminate|contradiction|contradiction]. }
  rewrite loop_S in H. assert (N1 : add_new x [] = [x]) by reflexivity. rewrite N1 in H.
  assert (E : namespaces_loop n false attributes
    (r ++ match dget x attributes with Some v => strings_at "_namespace" (entries v) | None => [] end) [x] = Some ns).
  { destruct (dget x attributes); [exact H|]. rewrite app_nil_r. exact H. }
  clear H.
  destruct (loop_spec n attributes _ [x] ns (reaches attributes (x :: r)) E) as [A1 [A2 [A3 [A4 [A5 A6]]]]].
  - constructor; [intros []|constructor].
  - intros y [<-|[]]. eapply R_first; eauto.
  - intros y Y I. apply in_app_or in Y. destruct Y as [Y|Y]; [apply R_given; [now right|auto]|].
    destruct (dget x attributes) as [v|] eqn:D; [|contradiction].
    eapply R_more; [eapply R_first; reflexivity|]. apply (leads_iff attributes x y v D). auto.
  - intros y z Y L. eapply R_more; eauto.
  - intros y z [<-|[]] L. right. apply in_or_app. right. destruct L as [d [D [L1 L2]]]. rewrite D. exact L1.
  - split; [auto|split; [|cbn [hd_error]; rewrite A6; [reflexivity|discriminate]]].
    intros y. split; [apply A4|]. intros R. induction R as [y r0 Q|y I K|y z _ IH L].
    + injection Q as -> _. apply A2. now left.
    + destruct I as [<-|I]; [apply A2; now left|]. apply A3; [apply in_or_app; now left|auto].
    + eapply A5; eauto.
Qed.

(* C97: the namespaces that are consulted are exactly the ones that can be reached, each of them once and the first one in
   front *)
Theorem namespaces_exact : forall attributes l ns, get_attribute_namespaces attributes l = Some ns ->
  NoDup ns /\ (forall x, In x ns <-> reaches attributes l x) /\ hd_error ns = hd_error l.
Proof. intros attributes l ns. exact (loop_exact 99 attributes l ns). Qed.

(* C97: namespaces that ask for each other end in a fatal error *)
Lemma loop_cycle : forall n attributes todo acc first y z,
  leads_many attributes y y -> In z todo -> (z = y \/ leads_many attributes z y) ->
  namespaces_loop n first attributes todo acc = None.
Proof.
  induction n as [|n IH]; intros attributes todo acc first y z Cy Z P; destruct todo as [|ns r]; try contradiction; [reflexivity|].
  rewrite loop_S.
  assert (Q : leads_many attributes z y) by (destruct P as [->|P]; auto).
  destruct Z as [->|Z].
  - assert (W : exists w, leads attributes z w /\ (w = y \/ leads_many attributes w y)).
    { inversion Q; subst; [exists y; auto|eexists; eauto]. }
    destruct W as [w [L W]]. destruct L as [d [D [L1 L2]]]. rewrite D. cbn [entries].
    eapply IH; [exact Cy| |exact W]. apply in_or_app. now right.
  - destruct (dget ns attributes) as [v|].
    + eapply IH; [exact Cy| |exact P]. apply in_or_app. now left.
    + eapply IH; eauto.
Qed.

Lemma leads_trans : forall attributes a b c, leads_many attributes a b -> leads_many attributes b c -> leads_many attributes a c.
Proof. induction 1 as [y x L|y z x L _ IH]; intros H; [eapply L_more; eauto|eapply L_more; eauto]. Qed.

Theorem namespaces_cycle_fatal : forall attributes l y, reaches attributes l y -> leads_many attributes y y ->
  get_attribute_namespaces attributes l = None.
Proof.
  intros attributes l y R Cy.
  assert (X : exists z, In z l /\ (z = y \/ leads_many attributes z y)).
  { clear Cy. induction R as [x r E|x I K|y x _ IH L].
    - exists x. subst l. split; [now left|auto].
    - exists x. auto.
    - destruct IH as [z [Z P]]. exists z. split; [auto|]. right.
      destruct P as [->|P]; [apply L_one; auto|eapply leads_trans; [exact P|apply L_one; auto]]. }
  destruct X as [z [Z P]]. exact (loop_cycle 100 attributes l [] true y z Cy Z P).
Qed.

(* ---- valid attributes ---- *)

Lemma remove_required_dict : forall d, remove_required (VDict d) =
  VDict (map (fun kv => (fst kv, remove_required (snd kv))) (filter (fun kv => negb (String.eqb (fst kv) "_required")) d)).
Proof.
  intros d. cbn [remove_required]. f_equal. induction d as [|[k x] r IH]; [reflexivity|].
  cbn [filter fst]. destruct (String.eqb k "_required"); cbn [negb map fst snd]; [exact IH|]. f_equal. exact IH.
Qed.

Lemma dget_map_filter : forall (f : val -> val) (q : string -> bool) k d,
  dget k (map (fun kv => (fst kv, f (snd kv))) (filter (fun kv => q (fst kv)) d)) =
  if q k then option_map f (dget k d) else None.
Proof.
  induction d as [|[k0 x] r IH]; cbn [filter map dget fst snd]; [destruct (q k); reflexivity|].
  destruct (String.eqb_spec k k0) as [<-|E].
  - destruct (q k) eqn:Q; cbn [map dget fst snd option_map].
    + now rewrite String.eqb_refl.
    + exact IH.
  - destruct (q k0); cbn [map dget fst snd]; [|exact IH]. destruct (String.eqb_spec k k0); [contradiction|exact IH].
Qed.

Lemma dget_filter_key : forall (q : string -> bool) k (d : dict val),
  dget k (filter (fun kv => q (fst kv)) d) = if q k then dget k d else None.
Proof.
  induction d as [|[k0 x] r IH]; cbn [filter dget fst]; [destruct (q k); reflexivity|].
  destruct (String.eqb_spec k k0) as [<-|E].
  - destruct (q k) eqn:Q; cbn [dget]; [now rewrite String.eqb_refl|exact IH].
  - destruct (q k0); cbn [dget]; [|exact IH]. destruct (String.eqb_spec k k0); [contradiction|exact IH].
Qed.

(* attributes of a secondary namespace that are not passed on *)
Definition withheld (attributes : dict val) (ns k : string) : bool :=
  match dget (ns ++ "_no_propagate")%string attributes with Some np => memS k (strings np) | None => false end.

Lemma secondary_dict : forall attributes ns d, exists e, secondary attributes ns (VDict d) = VDict e /\
  forall k, dget k e = if negb (String.eqb k "_required") && negb (withheld attributes ns k)
                       then option_map remove_required (dget k d) else None.
Proof.
  intros attributes ns d. unfold secondary, withheld. destruct (dget (ns ++ "_no_propagate")%string attributes) as [np|].
  - cbn [entries]. rewrite remove_required_dict. eexists. split; [reflexivity|]. intros k.
    rewrite (dget_map_filter remove_required (fun x => negb (String.eqb x "_required"))).
    destruct (negb (String.eqb k "_required")); [|reflexivity].
    rewrite (dget_filter_key (fun x => negb (memS x (strings np)))). cbn [andb]. destruct (memS k (strings np)); reflexivity.
  - rewrite remove_required_dict. eexists. split; [reflexivity|]. intros k.
    rewrite (dget_map_filter remove_required (fun x => negb (String.eqb x "_required"))).
    destruct (negb (String.eqb k "_required")); reflexivity.
Qed.

Lemma wf_filter : forall (q : string -> bool) d, wf (VDict d) -> wf (VDict (filter (fun kv => q (fst kv)) d)).
Proof.
  intros q d W. apply wf_VDict in W. destruct W as [N F]. apply wf_VDict. split.
  - clear F. induction d as [|[k x] r IH]; [constructor|]. cbn [dkeys map fst] in N. inversion N; subst. cbn [filter fst].
    destruct (q k); [|auto]. cbn [dkeys map fst]. constructor; [|auto].
    intros X. apply H1. apply in_map_iff in X. destruct X as [y [E Y]]. apply filter_In in Y. apply in_map_iff. exists y. tauto.
  - intros k v I. apply filter_In in I. eapply F. apply I.
Qed.

Lemma wf_remove : forall v, wf v -> wf (remove_required v).
Proof.
  induction v as [v Hv|d IH] using val_ind2; intros W.
  - destruct v; try exact W. discriminate.
  - rewrite remove_required_dict.
    pose proof (wf_filter (fun x => negb (String.eqb x "_required")) d W) as Wf. apply wf_VDict in Wf. destruct Wf as [N F].
    apply wf_VDict. split.
    + unfold dkeys. rewrite map_map. exact N.
    + intros k v I. apply in_map_iff in I. destruct I as [[k0 x] [E I]]. cbn [fst snd] in E. injection E as <- <-.
      apply IH with (k := k0).
      * apply filter_In in I. apply I.
      * eapply F; eauto.
Qed.

Lemma wf_secondary : forall attributes ns d, wf (VDict d) -> wf (secondary attributes ns (VDict d)).
Proof.
  intros attributes ns d W. unfold secondary. apply wf_remove. destruct (dget (ns ++ "_no_propagate")%string attributes); [|auto].
  cbn [entries]. now apply (wf_filter (fun x => negb (memS x (strings v)))).
Qed.

Definition no_internal (attributes : dict val) (l : list string) : Prop :=
  forall n, In n l -> dget (n ++ "_internal")%string attributes = None.

Definition unique (attributes : dict val) : Prop := forall n v, dget n attributes = Some v -> wf v.

Lemma merge_get : forall d1 d2 k, wf (VDict d2) -> dget k (entries (merge (VDict d1) (VDict d2))) = mopt (dget k d1) (dget k d2).
Proof. intros d1 d2 k W. rewrite merge_dicts. cbn [entries]. apply dget_mdict. apply wf_VDict in W. apply W. Qed.

(* one secondary namespace *)
Lemma valid_loop_secondary : forall attributes r d valid, unique attributes -> no_internal attributes r -> wf (VDict d) ->
  valid_loop attributes false r (VDict d) = Some valid -> is_dict valid = true ->
  wf valid /\
  (forall k s, dget k d = Some s -> exists s', dget k (entries valid) = Some s' /\ required s' = required s /\ (is_dict s = false -> s' = s)) /\
  (forall k, dget k d = None -> forall s, dget k (entries valid) = Some s -> required s = false) /\
  (forall k, In k (dkeys (entries valid)) <-> In k (dkeys d) \/
     exists n e, In n r /\ dget n attributes = Some (VDict e) /\ In k (dkeys e) /\ k <> "_required" /\ withheld attributes n k = false).
Proof.
  induction r as [|n r IH]; intros d valid U I W H Di; cbn [valid_loop] in H.
  { injection H as <-. cbn [entries]. split; [auto|split; [|split]].
    - intros k s D. exists s. auto.
    - intros k D s E. congruence.
    - intros k. split; [auto|]. intros [X|[n [e [[] _]]]]. auto. }
  assert (Ir : no_internal attributes r) by (intros x X; apply I; now right).
  destruct (dget n attributes) as [[| | |t| |e]|] eqn:D; try discriminate.
  - (* a type *)
    destruct (truthy (VDict d)); [discriminate|]. injection H as <-. discriminate.
  - (* a dictionary *)
    rewrite (I n (or_introl eq_refl)) in H. destruct (secondary_dict attributes n e) as [e' [Se Ge]].
    rewrite Se in H. rewrite merge_dicts in H.
    assert (We' : wf (VDict e')) by (rewrite <- Se; apply wf_secondary; eapply U; eauto).
    assert (Wm : wf (VDict (mdict e' d))) by (rewrite <- merge_dicts; now apply merge_wf).
    destruct (IH _ _ U Ir Wm H Di) as [A1 [A2 [A3 A4]]].
    assert (Gm : forall k, dget k (mdict e' d) = mopt (dget k e') (dget k d)).
    { intros k. apply dget_mdict. apply wf_VDict in W. apply W. }
    split; [auto|split; [|split]].
    + intros k s Dk. specialize (Gm k). rewrite Dk in Gm. destruct (dget k e') as [x|] eqn:Dx; cbn [mopt] in Gm.
      * destruct (A2 _ _ Gm) as [s' [B1 [B2 B3]]]. exists s'. split; [auto|].
        assert (Rq : required (merge x s) = required s /\ (is_dict s = false -> merge x s = s)).
        { destruct (is_dict s) eqn:Es.
          - split; [|discriminate]. destruct s as [| | | | |ds]; try discriminate.
            destruct x as [| | | | |dx]; try reflexivity. rewrite merge_dicts. cbn [required].
            assert (Wd : wf (VDict ds)) by (eapply (wf_dget d); eauto).
            apply wf_VDict in Wd. rewrite dget_mdict by apply Wd.
            assert (Nr : dget "_required" dx = None).
            { specialize (Ge k). rewrite Dx in Ge. destruct (negb (String.eqb k "_required") && negb (withheld attributes n k)); [|discriminate].
              destruct (dget k e) as [y|]; [|discriminate]. cbn [option_map] in Ge. injection Ge as Ge.
              destruct y as [| | | | |dy]; try discriminate. rewrite remove_required_dict in Ge. injection Ge as ->.
              rewrite (dget_map_filter remove_required (fun x => negb (String.eqb x "_required"))). reflexivity. }
            rewrite Nr. reflexivity.
          - rewrite (merge_scalar_r x s) by auto. auto. }
        destruct Rq as [R1 R2]. split; [congruence|]. intros Es. rewrite B3; [auto|]. now rewrite R2.
      * destruct (A2 _ _ Gm) as [s' B]. exists s'. auto.
    + intros k Dk s Ds. specialize (Gm k). rewrite Dk in Gm. destruct (dget k e') as [x|] eqn:Dx; cbn [mopt] in Gm.
      * destruct (A2 _ _ Gm) as [s' [B1 [B2 B3]]]. assert (s' = s) as -> by congruence. rewrite B2.
        specialize (Ge k). rewrite Dx in Ge. destruct (negb (String.eqb k "_required") && negb (withheld attributes n k)); [|discriminate].
        destruct (dget k e) as [y|]; [|discriminate]. cbn [option_map] in Ge. injection Ge as ->.
        destruct y as [| | | | |dy]; try reflexivity. rewrite remove_required_dict. cbn [required].
        rewrite (dget_map_filter remove_required (fun x => negb (String.eqb x "_required"))). reflexivity.
      * eapply A3; eauto.
    + intros k. rewrite A4.
      assert (Ik : In k (dkeys (mdict e' d)) <-> In k (dkeys d) \/ (In k (dkeys e) /\ k <> "_required" /\ withheld attributes n k = false)).
      { rewrite <- !dmem_true. unfold dmem. rewrite Gm, Ge.
        destruct (String.eqb_spec k "_required") as [Ek|Ek]; cbn [negb andb].
        - destruct (dget k d); cbn [mopt]; split; auto; try discriminate. intros [X|[_ [X _]]]; [discriminate|contradiction].
        - destruct (withheld attributes n k); cbn [negb].
          + destruct (dget k d); cbn [mopt]; split; auto; try discriminate. intros [X|[_ [_ X]]]; discriminate.
          + destruct (dget k e); cbn [option_map mopt]; destruct (dget k d); cbn [mopt]; split; auto; try discriminate.
            intros [X|[X _]]; discriminate. }
      rewrite Ik. split.
      * intros [[X|X]|[m [f [M1 M2]]]]; [auto| |].
        -- right. exists n, e. split; [now left|]. tauto.
        -- right. exists m, f. split; [now right|auto].
      * intros [X|[m [f [[<-|M1] M2]]]]; [auto| |].
        -- rewrite D in M2. destruct M2 as [M2 M3]. injection M2 as <-. auto.
        -- right. exists m, f. auto.
  - (* not defined *)
    destruct (IH _ _ U Ir W H Di) as [A1 [A2 [A3 A4]]]. split; [auto|split; [auto|split; [auto|]]].
    intros k. rewrite A4. split; (intros [X|[m [f [M1 M2]]]]; [auto|]).
    + right. exists m, f. split; [now right|auto].
    + right. destruct M1 as [<-|M1]; [destruct M2; congruence|]. exists m, f. auto.
Qed.

(* C98: the accepted attributes are the attributes of the first namespace and the attributes of the other namespaces that
   are not withheld; only the first namespace makes an attribute mandatory, and its simple definitions are not changed *)
Theorem valid_attributes_spec : forall attributes n l d valid,
  unique attributes -> no_internal attributes (n :: l) -> dget n attributes = Some (VDict d) ->
  get_valid_attributes attributes (n :: l) = Some valid -> is_dict valid = true ->
  (forall k, In k (dkeys (entries valid)) <->
     In k (dkeys d) \/
     exists m e, In m l /\ dget m attributes = Some (VDict e) /\ In k (dkeys e) /\ k <> "_required" /\ withheld attributes m k = false) /\
  (forall k s, dget k (entries valid) = Some s -> required s = true -> exists s0, dget k d = Some s0 /\ required s0 = true) /\
  (forall k s0, dget k d = Some s0 -> exists s, dget k (entries valid) = Some s /\ required s = required s0 /\ (is_dict s0 = false -> s = s0)).
Proof.
  intros attributes n l d valid U I D H Di. unfold get_valid_attributes in H. cbn [valid_loop] in H. rewrite D in H.
  rewrite (I n (or_introl eq_refl)) in H.
  assert (W : wf (VDict d)) by (eapply U; eauto).
  assert (E : merge (VDict d) (VDict []) = VDict d) by reflexivity. rewrite E in H.
  destruct (valid_loop_secondary attributes l d valid U (fun x X => I x (or_intror X)) W H Di) as [_ [A2 [A3 A4]]].
  split; [auto|split; [|auto]].
  intros k s G R. destruct (dget k d) as [s0|] eqn:Dk.
  - exists s0. split; [auto|]. destruct (A2 k s0 Dk) as [s' [B1 [B2 _]]]. assert (s' = s) as -> by congruence. congruence.
  - rewrite (A3 k Dk s G) in R. discriminate.
Qed.

(* the internal attributes of a namespace *)
Definition internal_of (attributes : dict val) (n : string) : dict val :=
  match dget (n ++ "_internal")%string attributes with Some (VDict d) => d | _ => [] end.

Definition internal_dicts (attributes : dict val) (l : list string) : Prop :=
  forall n v, In n l -> dget (n ++ "_internal")%string attributes = Some v -> is_dict v = true.

Lemma mdict_keys : forall k d1 d2, NoDup (dkeys d2) -> (In k (dkeys (mdict d1 d2)) <-> In k (dkeys d1) \/ In k (dkeys d2)).
Proof.
  intros k d1 d2 N. rewrite <- !dmem_true. unfold dmem. rewrite dget_mdict by auto.
  destruct (dget k d1), (dget k d2); cbn [mopt]; split; auto; try discriminate; intros [H|H]; discriminate.
Qed.

Lemma valid_loop_keys : forall attributes l first d valid, unique attributes -> internal_dicts attributes l -> wf (VDict d) ->
  valid_loop attributes first l (VDict d) = Some valid -> is_dict valid = true ->
  forall k, In k (dkeys (entries valid)) <->
    In k (dkeys d) \/
    exists i n e, nth_error l i = Some n /\ dget n attributes = Some (VDict e) /\
      (In k (dkeys (internal_of attributes n)) \/
       (In k (dkeys e) /\ ((first = true /\ i = 0) \/ (k <> "_required" /\ withheld attributes n k = false)))).
Proof.
  induction l as [|n l IH]; intros first d valid U I W H Di k; cbn [valid_loop] in H.
  { injection H as <-. cbn [entries]. split; [auto|]. intros [X|[i [n [e [E _]]]]]; [auto|]. destruct i; discriminate. }
  assert (Ir : internal_dicts attributes l) by (intros x v X; apply I; now right).
  destruct (dget n attributes) as [[| | |t| |e]|] eqn:D; try discriminate.
  - destruct (truthy (VDict d)); [discriminate|]. injection H as <-. discriminate.
  - assert (We : wf (VDict e)) by (eapply U; eauto).
    assert (A : exists a, (if first then VDict e else secondary attributes n (VDict e)) = VDict a /\ wf (VDict a) /\
      (In k (dkeys a) <-> In k (dkeys e) /\ (first = true \/ (k <> "_required" /\ withheld attributes n k = false)))).
    { destruct first.
      - exists e. split; [auto|split; [auto|]]. tauto.
      - destruct (secondary_dict attributes n e) as [e' [Se Ge]]. exists e'. split; [auto|split; [rewrite <- Se; now apply wf_secondary|]].
        rewrite <- !dmem_true. unfold dmem. rewrite Ge.
        destruct (String.eqb_spec k "_required") as [Ek|Ek]; cbn [negb andb].
        + split; [discriminate|]. intros [_ [X|[X _]]]; [discriminate|contradiction].
        + destruct (withheld attributes n k); cbn [negb].
          * split; [discriminate|]. intros [_ [X|[_ X]]]; discriminate.
          * destruct (dget k e); cbn [option_map]; split; intros X; auto; try discriminate; destruct X; discriminate. }
    destruct A as [a [Ea [Wa Ka]]]. rewrite Ea in H. rewrite merge_dicts in H.
    assert (Wm : wf (VDict (mdict a d))) by (rewrite <- merge_dicts; now apply merge_wf).
    assert (M : exists m, valid_loop attributes false l (VDict m) = Some valid /\ wf (VDict m) /\
      (In k (dkeys m) <-> In k (dkeys (mdict a d)) \/ In k (dkeys (internal_of attributes n)))).
    { unfold internal_of. destruct (dget (n ++ "_internal")%string attributes) as [x|] eqn:Dx.
      - assert (Dd := I n x (or_introl eq_refl) Dx). destruct x as [| | | | |dx]; try discriminate.
        assert (Wx : wf (VDict dx)) by (eapply U; eauto).
        rewrite merge_dicts in H. exists (mdict (mdict a d) dx). split; [auto|split].
        + rewrite <- merge_dicts. now apply merge_wf.
        + apply mdict_keys. apply wf_VDict in Wx. apply Wx.
      - exists (mdict a d). split; [auto|split; [auto|]]. cbn. tauto. }
    destruct M as [m [H2 [Wm2 Km]]].
    rewrite (IH false m valid U Ir Wm2 H2 Di k). rewrite Km.
    assert (Kd : In k (dkeys (mdict a d)) <-> In k (dkeys a) \/ In k (dkeys d)).
    { apply mdict_keys. apply wf_VDict in W. apply W. }
    rewrite Kd, Ka. split.
    + intros [[[[X Y]|X]|X]|[i [n0 [e0 [E1 [E2 E3]]]]]].
      * right. exists 0, n, e. split; [auto|split; [auto|]]. right. split; [auto|]. destruct Y as [Y|Y]; auto.
      * auto.
      * right. exists 0, n, e. auto.
      * right. exists (S i), n0, e0. split; [auto|split; [auto|]]. destruct E3 as [E3|[E3 E4]]; [auto|]. right. split; [auto|].
        destruct E4 as [[E4 _]|E4]; [discriminate|auto].
    + intros [X|[i [n0 [e0 [E1 [E2 E3]]]]]]; [auto|]. destruct i as [|i].
      * injection E1 as <-. rewrite D in E2. injection E2 as <-. destruct E3 as [E3|[E3 E4]]; [auto|].
        left. left. left. split; [auto|]. destruct E4 as [[E4 _]|E4]; auto.
      * right. exists i, n0, e0. split; [auto|split; [auto|]]. destruct E3 as [E3|[E3 E4]]; [auto|]. right. split; [auto|].
        destruct E4 as [[_ E4]|E4]; [discriminate|auto].
  - rewrite (IH false d valid U Ir W H Di k). split.
    + intros [X|[i [n0 [e0 [E1 [E2 E3]]]]]]; [auto|]. right. exists (S i), n0, e0. split; [auto|split; [auto|]].
      destruct E3 as [E3|[E3 E4]]; [auto|]. right. split; [auto|]. destruct E4 as [[E4 _]|E4]; [discriminate|auto].
    + intros [X|[i [n0 [e0 [E1 [E2 E3]]]]]]; [auto|]. destruct i as [|i]; [injection E1 as <-; congruence|].
      right. exists i, n0, e0. split; [auto|split; [auto|]]. destruct E3 as [E3|[E3 E4]]; [auto|]. right. split; [auto|].
      destruct E4 as [[_ E4]|E4]; [discriminate|auto].
Qed.

(* C98: the names of the accepted attributes, internal attributes included *)
Theorem valid_attributes_names : forall attributes l valid,
  unique attributes -> internal_dicts attributes l ->
  get_valid_attributes attributes l = Some valid -> is_dict valid = true ->
  forall k, In k (dkeys (entries valid)) <->
    exists i n e, nth_error l i = Some n /\ dget n attributes = Some (VDict e) /\
      (In k (dkeys (internal_of attributes n)) \/
       (In k (dkeys e) /\ (i = 0 \/ (k <> "_required" /\ withheld attributes n k = false)))).
Proof.
  intros attributes l valid U I H Di k. unfold get_valid_attributes in H.
  assert (W0 : wf (VDict [])) by (apply wf_VDict; split; [constructor|intros ? ? []]).
  rewrite (valid_loop_keys attributes l true [] valid U I W0 H Di).
  split.
  - intros [[]|[i [n [e [E1 [E2 E3]]]]]]. exists i, n, e. split; [auto|split; [auto|]]. destruct E3 as [E3|[E3 [[_ E4]|E4]]]; auto.
  - intros [i [n [e [E1 [E2 E3]]]]]. right. exists i, n, e. split; [auto|split; [auto|]]. destruct E3 as [E3|[E3 [E4|E4]]]; auto.
Qed.

(* C98: building the list of valid attributes changes the attribute definitions themselves when a secondary namespace has
   a list of attributes that are not passed on: a mandatory attribute is not mandatory any more *)
Theorem valid_attributes_pure_refuted : exists attributes l n k d d' s s',
  unique attributes /\ In n l /\
  dget n attributes = Some (VDict d) /\ dget k d = Some s /\ required s = true /\
  dget n (get_valid_effect attributes l) = Some (VDict d') /\ dget k d' = Some s' /\ required s' = false.
Proof.
  exists [("interface", VDict []); ("link", VDict [("pool", VDict [("type", VStr "str"); ("_required", VBool true)])]);
          ("link_no_propagate", VList [VStr "bridge"])],
         ["interface"; "link"], "link", "pool".
  do 4 eexists. split; [|split; [right; now left|split; [reflexivity|split; [reflexivity|split; [reflexivity|split; [reflexivity|split; reflexivity]]]]]].
  intros m v E. cbn [dget] in E.
  destruct (String.eqb m "interface"); [injection E as <-; apply wf_VDict; split; [constructor|intros ? ? []]|].
  destruct (String.eqb m "link").
  { injection E as <-. apply wf_VDict. split; [constructor; [intros []|constructor]|]. intros k v [X|[]]. injection X as _ <-.
    apply wf_VDict. split.
    - cbn. constructor; [intros [Y|[]]; discriminate|constructor; [intros []|constructor]].
    - intros k0 v0 [Y|[Y|[]]]; injection Y as _ <-; exact Logic.I. }
  destruct (String.eqb m "link_no_propagate"); [injection E as <-; exact Logic.I|discriminate].
Qed.

Theorem valid_attributes_pure : forall attributes l,
  (forall n, In n (tl l) -> dget (n ++ "_no_propagate")%string attributes = None) ->
  get_valid_effect attributes l = attributes.
Proof.
  intros attributes [|n l] H; [reflexivity|]. cbn [get_valid_effect tl] in *.
  induction l as [|m r IH]; [reflexivity|]. cbn [fold_left].
  assert (E : secondary_effect attributes m = attributes).
  { unfold secondary_effect. rewrite (H m (or_introl eq_refl)). destruct (dget m attributes) as [[]|]; reflexivity. }
  rewrite E. apply IH. intros x X. apply H. now right.
Qed.

(* ---- attributes of providers and tools ---- *)

(* [v] is the definition of attribute [o] for objects of kind [kw]: the attributes of provider or tool [o] for that kind *)
Definition offers (l : list string) (defaults : dict (dict (dict val))) (kw o : string) (v : val) : Prop :=
  exists t os data, In t l /\ dget t defaults = Some os /\ In (o, data) os /\
    ((exists a, dget "attributes" data = Some a /\ In (kw, v) (entries a)) \/
     (dget "attributes" data = None /\ In kw ["node"; "link"; "interface"] /\ v = VNull)).

Definition get2 (kw o : string) (attrs : dict (dict val)) : option val :=
  match dget kw attrs with Some d => dget o d | None => None end.

Lemma get2_add : forall kw o v kw' o' attrs,
  get2 kw' o' (add_attr kw o v attrs) = if String.eqb kw' kw && String.eqb o' o then Some v else get2 kw' o' attrs.
Proof.
  intros kw o v kw' o' attrs. unfold get2, add_attr. destruct (String.eqb_spec kw' kw) as [->|N].
  - rewrite dget_dset_same. destruct (String.eqb_spec o' o) as [->|N2]; cbn [andb].
    + now rewrite dget_dset_same.
    + rewrite dget_dset_other by auto. now destruct (dget kw attrs).
  - cbn [andb]. now rewrite dget_dset_other by auto.
Qed.

(* the change from [a] to [b] consists of the definitions in [W] *)
Definition gains (a b : dict (dict val)) (W : string -> string -> val -> Prop) : Prop := forall kw o,
  (forall v, get2 kw o b = Some v -> get2 kw o a = Some v \/ W kw o v) /\
  ((get2 kw o a <> None \/ exists v, W kw o v) -> get2 kw o b <> None).

Lemma gains_fold : forall A (f : dict (dict val) -> A -> dict (dict val)) (W : A -> string -> string -> val -> Prop) l a,
  (forall x a, In x l -> gains a (f a x) (W x)) ->
  gains a (fold_left f l a) (fun kw o v => exists x, In x l /\ W x kw o v).
Proof.
  intros A f W. induction l as [|x l IH]; intros a H kw o; cbn [fold_left].
  - split; [auto|]. intros [N|[v [x [[] _]]]]. auto.
  - destruct (H x a (or_introl eq_refl) kw o) as [H1 H2].
    destruct (IH (f a x) (fun y b I => H y b (or_intror I)) kw o) as [I1 I2]. split.
    + intros v G. destruct (I1 v G) as [G1|[y [Y G1]]].
      * destruct (H1 v G1) as [G2|G2]; [auto|]. right. exists x. split; [now left|auto].
      * right. exists y. split; [now right|auto].
    + intros [N|[v [y [[<-|Y] G]]]]; apply I2; [left; auto|left; apply H2; eauto|right; eauto].
Qed.

Lemma gains_eq : forall a b (W W' : string -> string -> val -> Prop), gains a b W -> (forall kw o v, W kw o v <-> W' kw o v) -> gains a b W'.
Proof.
  intros a b W W' G E kw o. destruct (G kw o) as [G1 G2]. split.
  - intros v H. destruct (G1 v H) as [X|X]; [auto|right; now apply E].
  - intros [N|[v X]]; apply G2; [auto|right; exists v; now apply E].
Qed.

Lemma gains_add : forall kw o v a, gains a (add_attr kw o v a) (fun kw' o' v' => kw' = kw /\ o' = o /\ v' = v).
Proof.
  intros kw o v a kw' o'. rewrite get2_add. destruct (String.eqb_spec kw' kw) as [->|N1]; cbn [andb].
  - destruct (String.eqb_spec o' o) as [->|N2]; split.
    + intros w E. injection E as <-. auto.
    + discriminate.
    + auto.
    + intros [N|[w [_ [E _]]]]; [auto|contradiction].
  - split; [auto|]. intros [N|[w [E _]]]; [auto|contradiction].
Qed.

(* C98: providers and tools become attributes of nodes, links and interfaces: exactly those that are offered, each with
   one of the definitions offered for it *)
Theorem object_attributes_exact : forall l defaults kw o,
  let attrs := get_object_attributes l defaults in
  ((exists d, dget kw attrs = Some d /\ In o (dkeys d)) <-> exists v, offers l defaults kw o v) /\
  (forall d v, dget kw attrs = Some d -> dget o d = Some v -> offers l defaults kw o v).
Proof.
  intros l defaults kw o attrs.
  assert (G : gains [] attrs (offers l defaults)).
  { apply gains_eq with (W := fun kw o v => exists t, In t l /\ exists os, dget t defaults = Some os /\ exists x, In x os /\ fst x = o /\
      ((exists a, dget "attributes" (snd x) = Some a /\ In (kw, v) (entries a)) \/
       (dget "attributes" (snd x) = None /\ In kw ["node"; "link"; "interface"] /\ v = VNull))).
    - apply gains_fold with (W := fun t kw o v => exists os, dget t defaults = Some os /\ exists x, In x os /\ fst x = o /\
        ((exists a, dget "attributes" (snd x) = Some a /\ In (kw, v) (entries a)) \/
         (dget "attributes" (snd x) = None /\ In kw ["node"; "link"; "interface"] /\ v = VNull))).
      intros t a _. destruct (dget t defaults) as [os|].
      + apply gains_eq with (W := fun kw o v => exists x, In x os /\ (fst x = o /\
          ((exists a, dget "attributes" (snd x) = Some a /\ In (kw, v) (entries a)) \/
           (dget "attributes" (snd x) = None /\ In kw ["node"; "link"; "interface"] /\ v = VNull)))).
        * apply gains_fold with (W := fun x kw o v => fst x = o /\
            ((exists a, dget "attributes" (snd x) = Some a /\ In (kw, v) (entries a)) \/
             (dget "attributes" (snd x) = None /\ In kw ["node"; "link"; "interface"] /\ v = VNull))).
          intros [o1 data] a1 _. unfold object_attributes. cbn [fst snd]. destruct (dget "attributes" data) as [at_|].
          -- eapply gains_eq; [apply gains_fold; intros kv a2 _; apply gains_add|]. intros kw1 o2 v. split.
             ++ intros [[k1 v1] [I [-> [-> ->]]]]. split; [auto|]. left. exists at_. auto.
             ++ intros [<- [[b [E I]]|[E _]]]; [|discriminate]. injection E as <-. exists (kw1, v). auto.
          -- eapply gains_eq; [apply gains_fold; intros kv a2 _; apply gains_add|]. intros kw1 o2 v. split.
             ++ intros [k1 [I [-> [-> ->]]]]. split; [auto|]. right. auto.
             ++ intros [<- [[b [E _]]|[_ [I ->]]]]; [discriminate|]. exists kw1. auto.
        * intros kw1 o1 v. split; [intros H; exists os; auto|]. intros [os1 [E H]]. injection E as <-. auto.
      + intros kw1 o1. split; [auto|]. intros [N|[v [os [E _]]]]; [auto|discriminate].
    - intros kw1 o1 v. split.
      + intros [t [I [os [E [[o2 data] [X [<- H]]]]]]]. exists t, os, data. auto.
      + intros [t [os [data [I [E [X H]]]]]]. exists t. split; [auto|]. exists os. split; [auto|]. exists (o1, data). auto. }
  destruct (G kw o) as [G1 G2]. unfold get2 in G1, G2. cbn [dget] in G1, G2. split; [split|].
  - intros [d [D I]]. rewrite D in G1. destruct (dget o d) as [v|] eqn:Dv.
    + destruct (G1 v eq_refl) as [X|X]; [discriminate|eauto].
    + apply dget_None in Dv. contradiction.
  - intros X. specialize (G2 (or_intror X)). destruct (dget kw attrs) as [d|]; [|congruence]. exists d. split; [auto|].
    destruct (dget o d) as [v|] eqn:Dv; [eapply dget_Some_key; eauto|congruence].
  - intros d v D Dv. rewrite D, Dv in G1. destruct (G1 v eq_refl) as [X|X]; [discriminate|auto].
Qed.

(* ---- concrete cases ---- *)

Definition ex_attributes : dict val :=
  [("node", VDict [("id", VStr "int"); ("_namespace", VStr "link")]);
   ("interface", VDict [("ipv4", VStr "ipv4"); ("name", VDict [("type", VStr "str"); ("_required", VBool true)]);
                        ("_namespace", VList [VStr "link"])]);
   ("link", VDict [("ipv4", VStr "bool"); ("role", VDict [("type", VStr "id"); ("_required", VBool true)]); ("bridge", VStr "str")]);
   ("link_no_propagate", VList [VStr "bridge"])].

Example ex_namespaces : get_attribute_namespaces ex_attributes ["interface"; "none"; "link"] = Some ["interface"; "link"].
Proof. reflexivity. Qed.

Example ex_reaches : reaches ex_attributes ["interface"] "link".
Proof.
  eapply R_more; [eapply R_first; reflexivity|]. eexists. split; [reflexivity|]. split; [now left|]. cbn. tauto.
Qed.

Example ex_valid : option_map (fun v => dkeys (entries v)) (get_valid_attributes ex_attributes ["interface"; "link"])
  = Some ["ipv4"; "role"; "name"; "_namespace"].
Proof. reflexivity. Qed.

Example ex_cycle : get_attribute_namespaces
  [("a", VDict [("_namespace", VStr "b")]); ("b", VDict [("_namespace", VStr "a")])] ["a"] = None.
Proof.
  eapply namespaces_cycle_fatal with (y := "a"); [eapply R_first; reflexivity|].
  eapply L_more with (z := "b"); [|apply L_one]; (eexists; split; [reflexivity|split; [now left|cbn; tauto]]).
Qed.

Example ex_object_attributes : get_object_attributes ["providers"; "tools"]
  [("providers", [("clab", [("attributes", VDict [("node", VDict [("kind", VStr "str")])])]); ("external", [])])]
  = [("node", [("clab", VDict [("kind", VStr "str")]); ("external", VNull)]); ("link", [("external", VNull)]); ("interface", [("external", VNull)])].
Proof. reflexivity. Qed.

Print Assumptions object_attributes_exact.
Print Assumptions namespaces_exact.
Print Assumptions namespaces_cycle_fatal.
Print Assumptions valid_attributes_spec.
Print Assumptions valid_attributes_names.
Print Assumptions valid_attributes_pure_refuted.
Print Assumptions valid_attributes_pure.
