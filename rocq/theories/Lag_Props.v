(* Properties of the link aggregation module: C47, C73, C74. *)
From Coq Require Import String ZArith Lia Bool List Sorted.
From Verif Require Import Base IdAlloc_Model IdAlloc_Props Lag_Model.
Import ListNotations.
Open Scope Z_scope.

(* ------------------------------------------------------------------ *)
(* Sides of a LAG link                                                  *)

Lemma add_node_in : forall n s x, In x (add_node n s) <-> x = n \/ In x s.
Proof.
  intros n s x. unfold add_node. destruct (memS n s) eqn:E.
  - apply memS_true in E. split; auto. intros [->|H]; auto.
  - rewrite in_app_iff. cbn [In]. split; intros [H|H]; auto. destruct H as [<-|[]]. auto.
Qed.

Lemma add_node_nodup : forall n s, NoDup s -> NoDup (add_node n s).
Proof.
  intros n s H. unfold add_node. destruct (memS n s) eqn:E; auto. apply memS_false in E.
  apply NoDup_app_intro; auto; [repeat constructor; intros []|]. intros x Hx [<-|[]]. auto.
Qed.

Definition connects (A B : list string) (m : member) : Prop := (In (fst m) A /\ In (snd m) B) \/ (In (snd m) A /\ In (fst m) B).

Lemma split_members_spec : forall pairs ms A B A' B', split_members pairs ms (A, B) = Some (A', B') ->
  incl A A' /\ incl B B' /\ (NoDup A -> NoDup A') /\ (NoDup B -> NoDup B')
  /\ (forall m, In m ms -> connects A' B' m)
  /\ (forall x, In x A' \/ In x B' -> (In x A \/ In x B) \/ exists m, In m ms /\ (x = fst m \/ x = snd m)).
Proof.
  intros pairs. induction ms as [|[a b] ms IH]; intros A B A' B' H; cbn [split_members] in H.
  - injection H as <- <-. repeat split; auto using incl_refl. intros m [].
  - destruct (split_member pairs (a, b) (A, B)) as [[A1 B1]|] eqn:E; [|discriminate].
    destruct (IH _ _ _ _ H) as [I1 [I2 [I3 [I4 [I5 I6]]]]]. cbn [split_member] in E.
    assert (S : (A1 = add_node a A /\ B1 = add_node b B) \/ (A1 = add_node b A /\ B1 = add_node a B)).
    { destruct (side_of pairs a A || side_of pairs b B); [left; injection E as <- <-; auto|].
      destruct (side_of pairs a B || side_of pairs b A); [right; injection E as <- <-; auto|discriminate]. }
    destruct S as [[-> ->]|[-> ->]]; repeat split; auto using add_node_nodup.
    + intros x Hx. apply I1. apply add_node_in. auto.
    + intros x Hx. apply I2. apply add_node_in. auto.
    + intros m [<-|Hm]; auto. left. split; [apply I1|apply I2]; apply add_node_in; auto.
    + intros x Hx. apply I6 in Hx. rewrite !add_node_in in Hx. destruct Hx as [[[->|Hx]|[->|Hx]]|[m [Hm Hx]]]; auto.
      * right. exists (a, b). split; [left|]; auto.
      * right. exists (a, b). split; [left|]; auto.
      * right. exists m. split; [right|]; auto.
    + intros x Hx. apply I1. apply add_node_in. auto.
    + intros x Hx. apply I2. apply add_node_in. auto.
    + intros m [<-|Hm]; auto. right. split; [apply I1|apply I2]; apply add_node_in; auto.
    + intros x Hx. apply I6 in Hx. rewrite !add_node_in in Hx. destruct Hx as [[[->|Hx]|[->|Hx]]|[m [Hm Hx]]]; auto.
      * right. exists (a, b). split; [left|]; auto.
      * right. exists (a, b). split; [left|]; auto.
      * right. exists m. split; [right|]; auto.
Qed.

(* Every member link has one end on each side; the sides consist of the nodes on member links, without duplicates. *)
Theorem lag_sides_spec : forall pairs ms A B, lag_sides pairs ms = Some (A, B) ->
  NoDup A /\ NoDup B
  /\ (forall m, In m ms -> (In (fst m) A /\ In (snd m) B) \/ (In (snd m) A /\ In (fst m) B))
  /\ (forall x, In x A \/ In x B <-> exists m, In m ms /\ (x = fst m \/ x = snd m)).
Proof.
  intros pairs [|[a b] ms] A B H; [discriminate|]. cbn [lag_sides] in H.
  destruct (split_members_spec _ _ _ _ _ _ H) as [I1 [I2 [I3 [I4 [I5 I6]]]]].
  assert (C : forall m, In m ((a, b) :: ms) -> connects A B m).
  { intros m [<-|Hm]; auto. left. split; [apply I1|apply I2]; left; auto. }
  split; [apply I3; repeat constructor; intros []|]. split; [apply I4; repeat constructor; intros []|]. split; [exact C|].
  intros x. split.
  - intros Hx. apply I6 in Hx. destruct Hx as [[[<-|[]]|[<-|[]]]|[m [Hm Hx]]].
    + exists (a, b). split; [left|]; auto.
    + exists (a, b). split; [left|]; auto.
    + exists m. split; [right|]; auto.
  - intros [m [Hm [->| ->]]]; destruct (C m Hm) as [[P Q]|[P Q]]; auto.
Qed.

Example lag_sides_case :
  lag_sides [("s1", "s2"); ("s2", "s1")]%string [("h", "s1"); ("s2", "h")]%string = Some (["h"], ["s1"; "s2"])%string
  /\ lag_sides [] [("a", "b"); ("c", "d")]%string = None.
Proof. split; reflexivity. Qed.

(* Three peers on one side are not reported (the error message says that only 1:1, 1:2 and 2:2 are supported) and a
   triangle puts a node on both sides. *)
Theorem lag_sides_refuted :
  (exists ms A B, lag_sides [] ms = Some (A, B) /\ length A = 1%nat /\ length B = 3%nat)
  /\ (exists ms A B x, lag_sides [] ms = Some (A, B) /\ In x A /\ In x B).
Proof.
  split.
  - exists [("x", "y"); ("x", "z"); ("x", "w")]%string. eexists. eexists. split; [reflexivity|]. auto.
  - exists [("x", "y"); ("x", "z"); ("y", "z")]%string. eexists. eexists. exists "y"%string. split; [reflexivity|]. cbn. auto.
Qed.

(* ------------------------------------------------------------------ *)
(* LAG interface indices                                                *)

(* Indices given to a node, in order; own = configured on the interface *)
Definition node_indices (n : string) (evs : list lag_event) : list Z :=
  map ev_ifindex (filter (fun e => String.eqb (ev_node e) n && negb (ev_own e)) evs).

Definition below (m : option Z) (l : list Z) : Prop := match m with Some x => Forall (fun y => x <= y) l | None => True end.

Lemma node_indices_app : forall n a b, node_indices n (a ++ b) = node_indices n a ++ node_indices n b.
Proof. intros. unfold node_indices. rewrite filter_app, map_app. auto. Qed.

(* [grows]: indices [l] of node [n] were given between states [st] and [st'] *)
Definition grows (n : string) (st st' : lag_state) (l : list Z) : Prop :=
  StronglySorted Z.lt l /\ below (dget n (ls_next st)) l
  /\ match dget n (ls_next st) with
     | Some x => exists y, dget n (ls_next st') = Some y /\ x <= y /\ Forall (fun z => z < y) l
     | None => (dget n (ls_next st') = None /\ l = []) \/ exists y, dget n (ls_next st') = Some y /\ Forall (fun z => z < y) l
     end.

Definition st_ok (st : lag_state) : Prop :=
  (forall n x, dget n (ls_next st) = Some x -> 1 <= x)
  /\ (forall n, iv_next (ls_ids st) = Some n -> 0 <= n).

Lemma set_spec : forall start reserved mside st bond i st' bond' x, 0 <= start -> st_ok st -> (forall b, bond = Some b -> 0 <= b) ->
  set_lag_ifindex start reserved mside st bond i = Ok (st', bond', x) ->
  ~ In x (reserved (li_node i))
  /\ match li_ifindex i with
     | Some y => x = y /\ st' = st
     | None => 0 <= x /\ dget (li_node i) (ls_next st') = Some (x + 1) /\ (forall k, k <> li_node i -> dget k (ls_next st') = dget k (ls_next st))
               /\ st_ok st' /\ (forall z, dget (li_node i) (ls_next st) = Some z -> z <= x)
               /\ (forall b, bond' = Some b -> 0 <= b)
     end.
Proof.
  intros start reserved mside st bond i st' bond' x S0 [Ok1 Ok2] Bd H. unfold set_lag_ifindex in H.
  set (n := li_node i) in *.
  assert (Fin : forall sa ba xa, (if memZ xa (reserved n) then Err (LagReserved n) else Ok (sa, ba, xa)) = Ok (st', bond', x) ->
      ~ In x (reserved n) /\ st' = sa /\ bond' = ba /\ x = xa).
  { intros sa ba xa Hf. destruct (memZ xa (reserved n)) eqn:M; [discriminate|]. apply memZ_false in M. injection Hf as <- <- <-. auto. }
  assert (Tr : forall (ids : idvar) z, 0 <= z -> (forall n, iv_next ids = Some n -> 0 <= n) ->
      let sa := mk_ls (dset n (z + 1) (ls_next st)) ids in
      dget n (ls_next sa) = Some (z + 1) /\ (forall k, k <> n -> dget k (ls_next sa) = dget k (ls_next st)) /\ st_ok sa).
  { intros ids z Hz Hi sa. unfold sa. cbn [ls_next]. split; [apply dget_dset_same|]. split; [intros k N; apply dget_dset_other; auto|].
    split; [|exact Hi]. cbn [ls_next]. intros k y Hk. destruct (String.eqb_spec k n) as [E|N].
    - rewrite E, dget_dset_same in Hk. injection Hk as <-. lia.
    - rewrite dget_dset_other in Hk by auto. eauto. }
  destruct (li_ifindex i) as [y|].
  - apply Fin in H. destruct H as [H1 [H2 [_ H4]]]. auto.
  - destruct bond as [l|].
    + pose proof (Bd l eq_refl) as Hl. destruct (dget n (ls_next st)) as [z|] eqn:D.
      * pose proof (Ok1 n z D) as Hz. destruct (negb (z =? 0) && (z >? l)) eqn:C.
        -- apply Fin in H. destruct H as [H1 [-> [-> ->]]]. split; auto. split; [lia|].
           destruct (Tr (ls_ids st) z ltac:(lia) Ok2) as [T1 [T2 T3]]. split; auto. split; auto. split; auto. split; [intros z' E; injection E as <-; lia|].
           intros b Hb. destruct mside; injection Hb as <-; lia.
        -- apply Fin in H. destruct H as [H1 [-> [-> ->]]]. split; auto. split; [lia|].
           destruct (Tr (ls_ids st) l Hl Ok2) as [T1 [T2 T3]]. split; auto. split; auto. split; auto. split.
           ++ intros z' E. injection E as <-. apply andb_false_iff in C. destruct C as [C|C].
              ** apply negb_false_iff, Z.eqb_eq in C. lia.
              ** rewrite Z.gtb_ltb in C. apply Z.ltb_ge in C. lia.
           ++ intros b Hb. injection Hb as <-. auto.
      * apply Fin in H. destruct H as [H1 [-> [-> ->]]]. split; auto. split; [lia|].
        destruct (Tr (ls_ids st) l Hl Ok2) as [T1 [T2 T3]]. split; auto. split; auto. split; auto. split; [discriminate|].
        intros b Hb. injection Hb as <-. auto.
    + destruct mside.
      * destruct (dget n (ls_next st)) as [z|] eqn:D.
        -- pose proof (Ok1 n z D) as Hz. apply Fin in H. destruct H as [H1 [-> [-> ->]]]. split; auto. split; [lia|].
           destruct (Tr (ls_ids st) z ltac:(lia) Ok2) as [T1 [T2 T3]]. split; auto. split; auto. split; auto.
           split; [intros z' E; injection E as <-; lia|]. intros b Hb. injection Hb as <-. lia.
        -- destruct (get_next_id (ls_ids st)) as [[y ids']|e] eqn:G; [|discriminate].
           destruct (get_next_id_ok _ _ _ G) as [m [G1 [G2 [G3 [G4 [G5 G6]]]]]]. pose proof (Ok2 m G1) as Hm.
           apply Fin in H. destruct H as [H1 [-> [-> ->]]]. split; auto. split; [lia|].
           assert (Hi : forall k, iv_next ids' = Some k -> 0 <= k) by (subst ids'; cbn; intros k E; injection E as <-; lia).
           destruct (Tr ids' y ltac:(lia) Hi) as [T1 [T2 T3]]. split; auto. split; auto. split; auto. split; [discriminate|].
           intros b Hb. injection Hb as <-. lia.
      * assert (Hx : 0 <= match dget n (ls_next st) with Some y => y | None => start end).
        { destruct (dget n (ls_next st)) as [y|] eqn:D; auto. pose proof (Ok1 n y D). lia. }
        set (y := match dget n (ls_next st) with Some y => y | None => start end) in *.
        apply Fin in H. destruct H as [H1 [-> [-> ->]]]. split; auto. split; auto.
        destruct (Tr (ls_ids st) y Hx Ok2) as [T1 [T2 T3]]. split; auto. split; auto. split; auto. split; [|discriminate].
        intros z E. unfold y. rewrite E. lia.
Qed.

Lemma grows_refl : forall n st st', dget n (ls_next st') = dget n (ls_next st) -> grows n st st' [].
Proof.
  intros n st st' E. split; [constructor|]. split; [destruct (dget n (ls_next st)); cbn; auto|].
  rewrite E. destruct (dget n (ls_next st)) as [x|]; [exists x; split; auto; split; [lia|auto]|auto].
Qed.

Lemma sorted_app : forall l1 l2, StronglySorted Z.lt l1 -> StronglySorted Z.lt l2 -> (forall a b, In a l1 -> In b l2 -> a < b) -> StronglySorted Z.lt (l1 ++ l2).
Proof.
  induction l1 as [|a l1 IH]; intros l2 S1 S2 H; cbn [app]; auto. inversion S1 as [|? ? S F]; subst. constructor.
  - apply IH; auto. intros x y Hx Hy. apply H; [right|]; auto.
  - apply Forall_app. split; auto. apply Forall_forall. intros y Hy. apply H; [left|]; auto.
Qed.

Lemma grows_trans : forall n s1 s2 s3 l1 l2, grows n s1 s2 l1 -> grows n s2 s3 l2 -> grows n s1 s3 (l1 ++ l2).
Proof.
  intros n s1 s2 s3 l1 l2 [A1 [A2 A3]] [B1 [B2 B3]].
  destruct (dget n (ls_next s1)) as [x|] eqn:D1.
  - destruct A3 as [y [Y1 [Y2 Y3]]]. rewrite Y1 in B2, B3. destruct B3 as [z [Z1 [Z2 Z3]]]. cbn [below] in B2.
    rewrite Forall_forall in *. unfold grows. rewrite D1. split; [|split].
    + apply sorted_app; auto. intros a b Ha Hb. specialize (Y3 a Ha). specialize (B2 b Hb). lia.
    + cbn [below] in *. rewrite Forall_forall in *. intros a Ha. apply in_app_or in Ha. destruct Ha as [Ha|Ha]; auto. specialize (B2 a Ha). lia.
    + exists z. split; auto. split; [lia|]. apply Forall_forall. intros a Ha. apply in_app_or in Ha. destruct Ha as [Ha|Ha]; auto. specialize (Y3 a Ha). lia.
  - destruct A3 as [[Y1 ->]|[y [Y1 Y3]]].
    + cbn [app]. rewrite Y1 in B2, B3. unfold grows. rewrite D1. auto.
    + rewrite Y1 in B2, B3. destruct B3 as [z [Z1 [Z2 Z3]]]. cbn [below] in B2. rewrite Forall_forall in *. unfold grows. rewrite D1. split; [|split; [exact I|]].
      * apply sorted_app; auto. intros a b Ha Hb. specialize (Y3 a Ha). specialize (B2 b Hb). lia.
      * right. exists z. split; auto. apply Forall_forall. intros a Ha. apply in_app_or in Ha. destruct Ha as [Ha|Ha]; auto. specialize (Y3 a Ha). lia.
Qed.

Lemma grows_step : forall n st st' x, dget n (ls_next st') = Some (x + 1) -> (forall z, dget n (ls_next st) = Some z -> z <= x) -> grows n st st' [x].
Proof.
  intros n st st' x H1 H2. unfold grows. split; [repeat constructor|]. rewrite H1. destruct (dget n (ls_next st)) as [z|] eqn:D.
  - specialize (H2 z eq_refl). split; [repeat constructor; auto|]. exists (x + 1). split; auto. split; [lia|]. repeat constructor. lia.
  - split; [exact I|]. right. exists (x + 1). split; auto. repeat constructor. lia.
Qed.

Definition lag_values_ok (l : lag_link) : Prop :=
  (forall x, lk_ifindex l = Some x -> 0 <= x) /\ (forall i x, In i (lk_a l ++ lk_b l) -> li_ifindex i = Some x -> 0 <= x).

Lemma after_error_spec : forall start mside st bond i, 0 <= start -> st_ok st -> (forall b, bond = Some b -> 0 <= b) ->
  st_ok (state_after_error start mside st bond i) /\ forall n, grows n st (state_after_error start mside st bond i) [].
Proof.
  intros start mside st bond i S0 Okst Bd. unfold state_after_error.
  destruct (set_lag_ifindex start (fun _ => []) mside st bond i) as [[[st' bond'] x]|e] eqn:E.
  - apply set_spec in E; auto. destruct E as [_ E]. destruct (li_ifindex i) as [y|].
    + destruct E as [_ ->]. split; auto. intros n. apply grows_refl. auto.
    + destruct E as [E1 [E2 [E3 [E4 [E5 E6]]]]]. split; auto. intros n. destruct (String.eqb_spec n (li_node i)) as [En|N].
      * rewrite En. unfold grows. split; [constructor|]. rewrite E2. destruct (dget (li_node i) (ls_next st)) as [z|] eqn:D.
        -- split; [constructor|]. specialize (E5 z eq_refl). exists (x + 1). split; auto. split; [lia|constructor].
        -- split; [exact I|]. right. exists (x + 1). split; auto.
      * apply grows_refl. auto.
  - split; auto. intros n. apply grows_refl. auto.
Qed.

Lemma side_spec : forall start reserved mside is st bond st' evs e, 0 <= start -> st_ok st -> (forall b, bond = Some b -> 0 <= b) ->
  (forall i x, In i is -> li_ifindex i = Some x -> 0 <= x) ->
  lag_side start reserved mside st bond is = (st', evs, e) ->
  st_ok st' /\ (forall n, grows n st st' (node_indices n evs)) /\ (forall v, In v evs -> ~ In (ev_ifindex v) (reserved (ev_node v)))
  /\ (e = None -> map ev_node evs = map li_node is).
Proof.
  intros start reserved mside. induction is as [|i is IH]; intros st bond st' evs e S0 Okst Bd Hi H; cbn [lag_side] in H.
  - injection H as <- <- <-. split; auto. split; [intros n; apply grows_refl; auto|]. split; [intros v []|auto].
  - destruct (set_lag_ifindex start reserved mside st bond i) as [[[st1 bond1] x]|er] eqn:E.
    + assert (Bd1 : forall b, bond1 = Some b -> 0 <= b).
      { destruct (li_ifindex i) as [y|] eqn:Li.
        - unfold set_lag_ifindex in E. rewrite Li in E. destruct (memZ y (reserved (li_node i))); [discriminate|]. injection E as <- <- <-.
          pose proof (Hi i y (or_introl eq_refl) Li). intros b Hb. destruct bond as [l|]; [destruct mside; injection Hb as <-; auto|injection Hb as <-; auto].
        - apply set_spec in E; auto. rewrite Li in E. tauto. }
      destruct (set_spec _ _ _ _ _ _ _ _ _ S0 Okst Bd E) as [R St].
      destruct (lag_side start reserved mside st1 bond1 is) as [[st2 evs2] e2] eqn:L. injection H as <- <- <-.
      assert (Ok1 : st_ok st1) by (destruct (li_ifindex i); [destruct St as [_ ->]; auto|tauto]).
      assert (Hi' : forall i0 x0, In i0 is -> li_ifindex i0 = Some x0 -> 0 <= x0) by (intros i0 x0 H0; apply Hi; right; auto).
      destruct (IH _ _ _ _ _ S0 Ok1 Bd1 Hi' L) as [I1 [I2 [I3 I4]]]. split; auto. split; [|split].
      * intros n. change (mk_le (li_node i) x (match li_ifindex i with Some _ => true | None => false end) :: evs2)
          with ([mk_le (li_node i) x (match li_ifindex i with Some _ => true | None => false end)] ++ evs2).
        rewrite node_indices_app. eapply grows_trans; [|apply I2].
        unfold node_indices. cbn [filter ev_node ev_own]. destruct (li_ifindex i) as [y|] eqn:Li.
        -- destruct St as [_ ->]. rewrite andb_false_r. cbn [map]. apply grows_refl. auto.
        -- destruct St as [X0 [X1 [X2 [_ [X3 _]]]]]. cbn [negb]. rewrite andb_true_r.
           destruct (String.eqb_spec (li_node i) n) as [En|N]; cbn [map ev_ifindex].
           ++ rewrite <- En. apply grows_step; auto.
           ++ apply grows_refl. apply X2. auto.
      * intros v [<-|Hv]; auto.
      * intros En. cbn [map ev_node]. rewrite I4; auto.
    + injection H as <- <- <-. destruct (after_error_spec start mside st bond i S0 Okst Bd) as [A1 A2]. split; auto.
      split; [auto|]. split; [intros v []|discriminate].
Qed.

Lemma link_spec : forall start reserved l st st' evs e, 0 <= start -> st_ok st -> lag_values_ok l ->
  lag_link_run start reserved st l = (st', evs, e) ->
  st_ok st' /\ (forall n, grows n st st' (node_indices n evs)) /\ (forall v, In v evs -> ~ In (ev_ifindex v) (reserved (ev_node v)))
  /\ (e = None -> map ev_node evs = map li_node (lk_a l ++ lk_b l)).
Proof.
  intros start reserved l st st' evs e S0 Okst [V1 V2] H. unfold lag_link_run in H.
  destruct (lag_side start reserved (is_mside (lk_a l)) st (lk_ifindex l) (lk_a l)) as [[st1 evs1] e1] eqn:E1.
  assert (VA : forall i x, In i (lk_a l) -> li_ifindex i = Some x -> 0 <= x) by (intros i x Hin; apply V2; apply in_or_app; auto).
  assert (VB : forall i x, In i (lk_b l) -> li_ifindex i = Some x -> 0 <= x) by (intros i x Hin; apply V2; apply in_or_app; auto).
  destruct (side_spec _ _ _ _ _ _ _ _ _ S0 Okst V1 VA E1) as [A1 [A2 [A3 A4]]]. destruct e1 as [er|].
  - injection H as <- <- <-. split; auto. split; auto. split; [auto|discriminate].
  - destruct (lag_side start reserved (is_mside (lk_b l)) st1 (lk_ifindex l) (lk_b l)) as [[st2 evs2] e2] eqn:E2.
    injection H as <- <- <-. destruct (side_spec _ _ _ _ _ _ _ _ _ S0 A1 V1 VB E2) as [B1 [B2 [B3 B4]]]. split; auto. split; [|split].
    + intros n. rewrite node_indices_app. eapply grows_trans; eauto.
    + intros v Hv. apply in_app_or in Hv. destruct Hv; auto.
    + intros ->. rewrite !map_app, A4, B4; auto.
Qed.

Lemma run_spec : forall start reserved ls st st' evs es, 0 <= start -> st_ok st -> Forall lag_values_ok ls ->
  lag_run start reserved st ls = (st', evs, es) ->
  st_ok st' /\ (forall n, grows n st st' (node_indices n evs)) /\ (forall v, In v evs -> ~ In (ev_ifindex v) (reserved (ev_node v)))
  /\ (es = [] -> map ev_node evs = map li_node (flat_map (fun l => lk_a l ++ lk_b l) ls)).
Proof.
  intros start reserved. induction ls as [|l ls IH]; intros st st' evs es S0 Okst V H; cbn [lag_run] in H.
  - injection H as <- <- <-. split; auto. split; [intros n; apply grows_refl; auto|]. split; [intros v []|auto].
  - inversion V as [|? ? V1 V2]; subst. destruct (lag_link_run start reserved st l) as [[st1 evs1] e1] eqn:E1.
    destruct (link_spec _ _ _ _ _ _ _ S0 Okst V1 E1) as [A1 [A2 [A3 A4]]].
    assert (C : (exists e, e1 = Some (LagIds e) /\ (st', evs, es) = (st1, evs1, [LagIds e])) \/
      exists st2 evs2 es2, lag_run start reserved st1 ls = (st2, evs2, es2) /\ st' = st2 /\ evs = evs1 ++ evs2 /\ es = match e1 with Some e => e :: es2 | None => es2 end).
    { destruct e1 as [[nd|e]|].
      - right. destruct (lag_run start reserved st1 ls) as [[st2 evs2] es2] eqn:R. injection H as <- <- <-. eauto 10.
      - left. exists e. split; auto.
      - right. destruct (lag_run start reserved st1 ls) as [[st2 evs2] es2] eqn:R. injection H as <- <- <-. eauto 10. }
    destruct C as [[e [-> C]]|[st2 [evs2 [es2 [R [-> [-> ->]]]]]]].
    + injection C as -> -> ->. split; auto. split; auto. split; [auto|discriminate].
    + destruct (IH _ _ _ _ S0 A1 V2 R) as [B1 [B2 [B3 B4]]]. split; auto. split; [|split].
      * intros n. rewrite node_indices_app. eapply grows_trans; eauto.
      * intros v Hv. apply in_app_or in Hv. destruct Hv; auto.
      * destruct e1; [discriminate|]. intros ->. cbn [flat_map]. rewrite map_app, (map_app _ (lk_a l ++ lk_b l)). rewrite A4, B4; auto.
Qed.

(* Indices assigned to a node (automatic or from links) are different and increase in the order of links; indices in
   the reserved range of the device are never assigned without an error. *)
Theorem lag_indices_increase : forall start reserved ls st' evs es, 0 <= start -> Forall lag_values_ok ls ->
  lag_run start reserved (lag_init start ls) ls = (st', evs, es) ->
  (forall n, StronglySorted Z.lt (node_indices n evs) /\ NoDup (node_indices n evs))
  /\ (forall v, In v evs -> ~ In (ev_ifindex v) (reserved (ev_node v)))
  /\ (es = [] -> map ev_node evs = map li_node (flat_map (fun l => lk_a l ++ lk_b l) ls)).
Proof.
  intros start reserved ls st' evs es S0 V H.
  assert (Ok0 : st_ok (lag_init start ls)).
  { split; [intros n x D; discriminate|]. cbn. intros n E. injection E as <-. auto. }
  destruct (run_spec _ _ _ _ _ _ _ S0 Ok0 V H) as [_ [A2 [A3 A4]]]. split; [|auto]. intros n. destruct (A2 n) as [S _]. split; auto.
  clear - S. induction S as [|x l S IH F]; constructor; auto. intros C. rewrite Forall_forall in F. apply F in C. lia.
Qed.

(* Hence indices of a node are unique when none of its interfaces has an explicit index. *)
Theorem lag_indices_unique : forall start reserved ls st' evs es n, 0 <= start -> Forall lag_values_ok ls ->
  lag_run start reserved (lag_init start ls) ls = (st', evs, es) ->
  (forall v, In v evs -> ev_node v = n -> ev_own v = false) ->
  NoDup (map ev_ifindex (filter (fun v => String.eqb (ev_node v) n) evs)).
Proof.
  intros start reserved ls st' evs es n S0 V H N. destruct (lag_indices_increase _ _ _ _ _ _ S0 V H) as [A _].
  destruct (A n) as [_ ND]. unfold node_indices in ND.
  erewrite filter_ext_in; [exact ND|]. intros v Hv. cbn beta. destruct (String.eqb_spec (ev_node v) n) as [E|E]; auto.
  rewrite (N v Hv E). auto.
Qed.

(* An index of the link is used unless the node already used a higher one. *)
Theorem lag_link_index : forall start reserved mside st l i st' bond' x, st_ok st -> li_ifindex i = None ->
  set_lag_ifindex start reserved mside st (Some l) i = Ok (st', bond', x) ->
  x = match dget (li_node i) (ls_next st) with Some z => Z.max l z | None => l end.
Proof.
  intros start reserved mside st l i st' bond' x [Ok1 _] Li H. unfold set_lag_ifindex in H. rewrite Li in H.
  destruct (dget (li_node i) (ls_next st)) as [z|] eqn:D.
  - pose proof (Ok1 _ _ D). destruct (z >? l) eqn:C.
    + rewrite Z.gtb_ltb in C. apply Z.ltb_lt in C. replace (z =? 0) with false in H by (symmetry; apply Z.eqb_neq; lia). cbn [negb andb] in H.
      destruct (memZ z (reserved (li_node i))); [discriminate|]. injection H as _ _ <-. lia.
    + rewrite andb_false_r in H. rewrite Z.gtb_ltb in C. apply Z.ltb_ge in C. destruct (memZ l (reserved (li_node i))); [discriminate|]. injection H as _ _ <-. lia.
  - destruct (memZ l (reserved (li_node i))); [discriminate|]. injection H as _ _ <-. auto.
Qed.

(* The second switch of an MLAG gets the same index unless it already used a higher one. *)
Theorem mlag_indices_match : forall start reserved st bond a b st' evs, 0 <= start -> st_ok st -> (forall l, bond = Some l -> 0 <= l) ->
  li_ifindex a = None -> li_ifindex b = None -> li_node a <> li_node b ->
  lag_side start reserved true st bond [a; b] = (st', evs, None) ->
  exists xa xb, evs = [mk_le (li_node a) xa false; mk_le (li_node b) xb false]
  /\ xb = match dget (li_node b) (ls_next st) with Some z => Z.max xa z | None => xa end.
Proof.
  intros start reserved st bond a b st' evs S0 Okst Bd La Lb N H. cbn [lag_side] in H.
  destruct (set_lag_ifindex start reserved true st bond a) as [[[st1 bond1] xa]|e] eqn:E; [|discriminate].
  destruct (set_lag_ifindex start reserved true st1 bond1 b) as [[[st2 bond2] xb]|e] eqn:E2; [|discriminate].
  injection H as <- <-. rewrite La, Lb. exists xa, xb. split; auto.
  assert (bond1 = Some xa) as ->.
  { unfold set_lag_ifindex in E. rewrite La in E. destruct bond as [l|].
    - destruct (dget (li_node a) (ls_next st)) as [z|].
      + destruct (negb (z =? 0) && (z >? l)).
        * destruct (memZ z (reserved (li_node a))); [discriminate|]. congruence.
        * destruct (memZ l (reserved (li_node a))); [discriminate|]. congruence.
      + destruct (memZ l (reserved (li_node a))); [discriminate|]. congruence.
    - destruct (dget (li_node a) (ls_next st)) as [z|].
      + destruct (memZ z (reserved (li_node a))); [discriminate|]. congruence.
      + destruct (get_next_id (ls_ids st)) as [[y ids']|e]; [|discriminate]. destruct (memZ y (reserved (li_node a))); [discriminate|]. congruence. }
  destruct (set_spec _ _ _ _ _ _ _ _ _ S0 Okst Bd E) as [_ St]. rewrite La in St. destruct St as [_ [_ [Oth [Ok1 _]]]].
  rewrite <- (Oth (li_node b)) by auto. eapply lag_link_index; eauto.
Qed.

Definition ai (n : string) : lag_intf := mk_li n None.

Example lag_case : let ls := [mk_ll None [ai "a"] [ai "b"]; mk_ll (Some 5) [ai "a"] [ai "c"]; mk_ll None [ai "a"] [ai "m1"; ai "m2"]]%string in
  snd (fst (lag_run 1 (fun _ => []) (lag_init 1 ls) ls))
  = [mk_le "a" 1 false; mk_le "b" 1 false; mk_le "a" 5 false; mk_le "c" 5 false; mk_le "a" 6 false; mk_le "m1" 1 false; mk_le "m2" 1 false]%string
  /\ Forall lag_values_ok ls.
Proof.
  split; [vm_compute; reflexivity|]. repeat constructor; cbn; try discriminate; try (intros i x H; intuition (subst; discriminate)).
  intros x E. injection E as <-. lia.
Qed.

(* An index configured on an interface does not advance the counter: the next link gets the same index. *)
Theorem lag_interface_index_refuted : exists ls st' evs, lag_run 1 (fun _ => []) (lag_init 1 ls) ls = (st', evs, [])
  /\ Forall lag_values_ok ls /\ exists e1 e2 x y, evs = [e1; x; e2; y] /\ ev_node e1 = ev_node e2 /\ ev_ifindex e1 = ev_ifindex e2.
Proof.
  exists [mk_ll None [mk_li "a" (Some 1)] [ai "b"]; mk_ll None [ai "a"] [ai "b"]]%string. eexists. eexists. split; [vm_compute; reflexivity|].
  split; [|do 4 eexists; split; [reflexivity|auto]].
  repeat constructor; cbn; try discriminate; intros i x H E.
  - destruct H as [<-|[<-|[]]]; [|discriminate]. injection E as <-. lia.
  - destruct H as [<-|[<-|[]]]; discriminate.
Qed.

(* An index configured on a link is silently replaced when an earlier link used a higher one. *)
Theorem lag_link_index_refuted : exists ls st' evs, lag_run 1 (fun _ => []) (lag_init 1 ls) ls = (st', evs, [])
  /\ exists l, In l ls /\ lk_ifindex l = Some 3 /\ lk_a l = [ai "a"]%string /\ ~ In (mk_le "a" 3 false) evs.
Proof.
  exists [mk_ll (Some 5) [ai "a"] [ai "b"]; mk_ll (Some 3) [ai "a"] [ai "b"]]%string. eexists. eexists. split; [vm_compute; reflexivity|].
  eexists. split; [right; left; reflexivity|]. split; [reflexivity|]. split; [reflexivity|].
  cbn. intros H. repeat (destruct H as [H|H]; [discriminate|]). exact H.
Qed.

(* The two switches of an MLAG can get different indices. *)
Theorem mlag_indices_refuted : exists ls st' evs, lag_run 1 (fun _ => []) (lag_init 1 ls) ls = (st', evs, [])
  /\ exists l, In l ls /\ lk_ifindex l = None /\ lk_b l = [ai "m1"; ai "m2"]%string
  /\ In (mk_le "m1" 1 false) evs /\ node_indices "m1" evs = [1] /\ ~ In 1 (skipn 1 (node_indices "m2" evs)).
Proof.
  exists [mk_ll None [ai "h"] [ai "m2"]; mk_ll None [ai "a"] [ai "m1"; ai "m2"]]%string. eexists. eexists. split; [vm_compute; reflexivity|].
  eexists. split; [right; left; reflexivity|]. split; [reflexivity|]. split; [reflexivity|]. split; [cbn; auto 10|]. split; [reflexivity|].
  cbn. intros [C|[]]. discriminate.
Qed.

(* ------------------------------------------------------------------ *)
(* MLAG peers                                                           *)

(* The peer address of each switch is the own address of the other one, and they are different. *)
Theorem mlag_peer_addresses : forall net ia ib, ia <> ib ->
  let (self_a, peer_a) := mlag_addresses net ia ib in
  let (self_b, peer_b) := mlag_addresses net ib ia in
  peer_a = self_b /\ peer_b = self_a /\ self_a <> self_b /\ net <= self_a < net + 2 /\ net <= self_b < net + 2.
Proof.
  intros net ia ib N. unfold mlag_addresses. destruct (Z.ltb_spec ia ib); destruct (Z.ltb_spec ib ia); repeat split; lia.
Qed.

Example mlag_peer_case : mlag_addresses 100 1 2 = (100, 101) /\ mlag_addresses 100 2 1 = (101, 100).
Proof. split; reflexivity. Qed.

(* MLAG groups have different virtual MAC addresses when their numbers differ modulo 65536. *)
Theorem mlag_macs_unique : forall base g1 g2, mlag_mac base g1 = mlag_mac base g2 <-> (g1 - g2) mod 65536 = 0.
Proof.
  intros base g1 g2. unfold mlag_mac. rewrite Zminus_mod.
  pose proof (Z.mod_pos_bound g1 65536 ltac:(lia)). pose proof (Z.mod_pos_bound g2 65536 ltac:(lia)).
  set (a := g1 mod 65536) in *. set (b := g2 mod 65536) in *. split.
  - intros E. replace (a - b) with 0 by lia. auto.
  - intros E. destruct (Z.lt_trichotomy a b) as [L|[->|L]]; auto.
    + rewrite <- (Z.mod_add (a - b) 1) in E by lia. rewrite Z.mod_small in E; lia.
    + rewrite Z.mod_small in E; lia.
Qed.

Example mlag_mac_case : mlag_mac 1000 1 = 1001 /\ mlag_mac 1000 65537 = 1001.
Proof. split; reflexivity. Qed.

(* a node or its MLAG peer is on a side *)
Definition near (pairs : dict string) (n : string) (s : list string) : Prop :=
  In n s \/ exists p, dget n pairs = Some p /\ In p s.

Lemma side_of_iff : forall pairs n s, side_of pairs n s = true <-> near pairs n s.
Proof.
  intros pairs n s. unfold side_of, near. rewrite orb_true_iff. destruct (dget n pairs) as [p|].
  - split.
    + intros [H|H]; apply memS_true in H; eauto.
    + intros [H|[q [E H]]]; [left|injection E as <-; right]; apply memS_true; auto.
  - split.
    + intros [H|H]; [apply memS_true in H; auto | discriminate].
    + intros [H|[q [E _]]]; [left; apply memS_true; auto | discriminate].
Qed.

Lemma split_members_app : forall pairs a b ab, split_members pairs (a ++ b) ab =
  match split_members pairs a ab with Some ab' => split_members pairs b ab' | None => None end.
Proof.
  intros pairs. induction a as [|m a IH]; intros b ab; [reflexivity|]. cbn [app split_members].
  destruct (split_member pairs m ab); auto.
Qed.

(* Adding a member link: it is refused when neither of its nodes nor their MLAG peers are on a side of the link; a node
   that is on a side, or whose MLAG peer is there, goes to that side. *)
Theorem lag_side_choice : forall pairs ms A B a b, lag_sides pairs ms = Some (A, B) ->
  (lag_sides pairs (ms ++ [(a, b)]) = None <-> ~ near pairs a A /\ ~ near pairs b B /\ ~ near pairs a B /\ ~ near pairs b A) /\
  (near pairs a A \/ near pairs b B -> exists A' B', lag_sides pairs (ms ++ [(a, b)]) = Some (A', B') /\
     (forall x, In x A' <-> x = a \/ In x A) /\ (forall x, In x B' <-> x = b \/ In x B)) /\
  (~ near pairs a A -> ~ near pairs b B -> near pairs a B \/ near pairs b A -> exists A' B', lag_sides pairs (ms ++ [(a, b)]) = Some (A', B') /\
     (forall x, In x A' <-> x = b \/ In x A) /\ (forall x, In x B' <-> x = a \/ In x B)).
Proof.
  intros pairs [|[c d] ms] A B a b H; [discriminate|]. cbn [app lag_sides] in *.
  rewrite split_members_app, H. cbn [split_members split_member]. rewrite <- !side_of_iff.
  destruct (side_of pairs a A), (side_of pairs b B), (side_of pairs a B), (side_of pairs b A); cbn [orb];
  (split; [split; [discriminate || (intros _; repeat split; discriminate) | intuition congruence] |
   split; [intros X; first [exfalso; intuition congruence | do 2 eexists; split; [reflexivity|]; split; intros x; apply add_node_in] |
           intros X Y Z; first [exfalso; intuition congruence | do 2 eexists; split; [reflexivity|]; split; intros x; apply add_node_in]]]).
Qed.

Example lag_side_choice_case :
  lag_sides [("s1", "s2"); ("s2", "s1")]%string [("s1", "t1"); ("t2", "s2")]%string = Some (["s1"; "s2"], ["t1"; "t2"])%string.
Proof. reflexivity. Qed.

(* The allocator of MLAG indices never returns an index configured on a link. *)
Lemma set_ids : forall start reserved mside st bond i st' bond' x l,
  set_lag_ifindex start reserved mside st bond i = Ok (st', bond', x) -> incl l (iv_used (ls_ids st)) -> incl l (iv_used (ls_ids st')).
Proof.
  intros start reserved mside st bond i st' bond' x l H I. unfold set_lag_ifindex in H.
  assert (F : forall sa ba xa, (if memZ xa (reserved (li_node i)) then Err (LagReserved (li_node i)) else Ok (sa, ba, xa)) = Ok (st', bond', x) -> st' = sa).
  { intros sa ba xa Hf. destruct (memZ xa (reserved (li_node i))); [discriminate|]. injection Hf as <- <- <-. auto. }
  destruct (li_ifindex i); [apply F in H; subst; auto|].
  destruct bond as [b|].
  - destruct (dget (li_node i) (ls_next st)) as [z|]; [destruct (negb (z =? 0) && (z >? b))|]; apply F in H; subst; auto.
  - destruct mside; [|apply F in H; subst; auto].
    destruct (dget (li_node i) (ls_next st)) as [z|]; [apply F in H; subst; auto|].
    destruct (get_next_id (ls_ids st)) as [[y ids']|e] eqn:G; [|discriminate].
    destruct (get_next_id_ok _ _ _ G) as [m [_ [_ [_ [_ [_ G6]]]]]]. apply F in H. subst. cbn. intros z Hz. right. auto.
Qed.

Lemma side_ids : forall start reserved mside is st bond st' evs e l,
  lag_side start reserved mside st bond is = (st', evs, e) -> incl l (iv_used (ls_ids st)) -> incl l (iv_used (ls_ids st')).
Proof.
  intros start reserved mside. induction is as [|i is IH]; intros st bond st' evs e l H I; cbn [lag_side] in H.
  - injection H as <- _ _. auto.
  - destruct (set_lag_ifindex start reserved mside st bond i) as [[[st1 b1] x]|er] eqn:E.
    + destruct (lag_side start reserved mside st1 b1 is) as [[st2 ev2] e2] eqn:L. injection H as <- _ _.
      eapply IH; eauto. eapply set_ids; eauto.
    + injection H as <- _ _. unfold state_after_error.
      destruct (set_lag_ifindex start (fun _ => []) mside st bond i) as [[[st1 b1] x]|e1] eqn:E1; auto. eapply set_ids; eauto.
Qed.

Lemma run_ids : forall start reserved ls st st' evs es l,
  lag_run start reserved st ls = (st', evs, es) -> incl l (iv_used (ls_ids st)) -> incl l (iv_used (ls_ids st')).
Proof.
  intros start reserved. induction ls as [|k ls IH]; intros st st' evs es l H I; cbn [lag_run] in H.
  - injection H as <- _ _. auto.
  - assert (L : forall st1 e1 r1, lag_link_run start reserved st k = (st1, e1, r1) -> incl l (iv_used (ls_ids st1))).
    { intros st1 e1 r1 R. unfold lag_link_run in R.
      destruct (lag_side start reserved (is_mside (lk_a k)) st (lk_ifindex k) (lk_a k)) as [[sa ea] [ra|]] eqn:S1.
      - injection R as <- _ _. eapply side_ids; eauto.
      - destruct (lag_side start reserved (is_mside (lk_b k)) sa (lk_ifindex k) (lk_b k)) as [[sb eb] rb] eqn:S2.
        injection R as <- _ _. eapply side_ids; eauto. eapply side_ids; eauto. }
    destruct (lag_link_run start reserved st k) as [[st1 e1] [[nd|e]|]] eqn:R; specialize (L _ _ _ eq_refl).
    + destruct (lag_run start reserved st1 ls) as [[st2 ev2] es2] eqn:Q. injection H as <- _ _. eauto.
    + injection H as <- _ _. auto.
    + destruct (lag_run start reserved st1 ls) as [[st2 ev2] es2] eqn:Q. injection H as <- _ _. eauto.
Qed.

Theorem mlag_index_not_on_links : forall start reserved all ls st evs es i st' bond x,
  lag_run start reserved (lag_init start all) ls = (st, evs, es) ->
  li_ifindex i = None -> dget (li_node i) (ls_next st) = None ->
  set_lag_ifindex start reserved true st None i = Ok (st', bond, x) ->
  bond = Some x /\ forall l, In l all -> lk_ifindex l <> Some x.
Proof.
  intros start reserved all ls st evs es i st' bond x R L D H.
  unfold set_lag_ifindex in H. rewrite L, D in H.
  destruct (get_next_id (ls_ids st)) as [[y ids']|e] eqn:G; [|discriminate].
  destruct (memZ y (reserved (li_node i))); [discriminate|]. injection H as _ <- <-. split; [reflexivity|].
  intros l Hl C. destruct (get_next_id_ok _ _ _ G) as [m [_ [_ [N _]]]]. apply N.
  apply (run_ids _ _ _ _ _ _ _ (flat_map (fun l => match lk_ifindex l with Some x => [x] | None => [] end) all) R).
  - cbn. intros z Hz. apply in_or_app. auto.
  - apply in_flat_map. exists l. split; [exact Hl|]. rewrite C. left. reflexivity.
Qed.

(* Sides with one node or with more than two nodes: every node uses its own next index. *)
Theorem plain_side_indices : forall start reserved l st st' evs e, lk_ifindex l = None -> length (lk_a l) <> 2%nat ->
  NoDup (map li_node (lk_a l)) -> (forall i, In i (lk_a l) -> li_ifindex i = None) -> lk_b l = [] ->
  lag_link_run start reserved st l = (st', evs, e) -> e = None ->
  evs = map (fun i => mk_le (li_node i) (match dget (li_node i) (ls_next st) with Some x => x | None => start end) false) (lk_a l).
Proof.
  intros start reserved l st st' evs e LI LN ND NI LB H EN. unfold lag_link_run in H. rewrite LI, LB in H.
  assert (M : is_mside (lk_a l) = false) by (apply Nat.eqb_neq; exact LN). rewrite M in H.
  assert (G : forall is st st1 ev1 e1, NoDup (map li_node is) -> (forall i, In i is -> li_ifindex i = None) ->
    lag_side start reserved false st None is = (st1, ev1, e1) -> e1 = None ->
    ev1 = map (fun i => mk_le (li_node i) (match dget (li_node i) (ls_next st) with Some x => x | None => start end) false) is).
  { clear. induction is as [|i is IH]; intros st st1 ev1 e1 ND NI H EN; cbn [lag_side] in H.
    - injection H as _ <- _. reflexivity.
    - destruct (set_lag_ifindex start reserved false st None i) as [[[st2 b2] x]|er] eqn:E; [|injection H as _ _ <-; discriminate].
      unfold set_lag_ifindex in E. rewrite (NI i) in E by (left; reflexivity).
      match type of E with (if ?c then _ else _) = _ => destruct c; [discriminate|] end. injection E as <- <- <-.
      destruct (lag_side start reserved false _ None is) as [[st3 ev3] e3] eqn:L in H. injection H as _ <- <-.
      cbn [map] in ND. inversion ND as [|? ? N1 N2]; subst. apply IH in L; auto; [|intros j Hj; apply NI; right; exact Hj].
      rewrite (NI i) by (left; reflexivity). cbn [map]. f_equal. rewrite L. apply map_ext_in. intros j Hj. cbn [ls_next].
      rewrite dget_dset_other; [reflexivity|]. intros C. apply N1. rewrite <- C. apply in_map. exact Hj. }
  destruct (lag_side start reserved false st None (lk_a l)) as [[s1 ev1] e1] eqn:S. destruct e1 as [er|].
  - injection H as _ _ <-. discriminate.
  - cbn [lag_side] in H. injection H as _ <- _. rewrite app_nil_r. eapply G; eauto.
Qed.

Example plain_side_case :
  snd (fst (lag_link_run 1 (fun _ => []) (lag_init 1 []) (mk_ll None [ai "x"; ai "y"; ai "z"]%string []))) = [mk_le "x" 1 false; mk_le "y" 1 false; mk_le "z" 1 false]%string
  /\ snd (fst (lag_link_run 1 (fun _ => []) (lag_init 1 [mk_ll (Some 1) [] []]) (mk_ll None [ai "x"; ai "y"]%string []))) = [mk_le "x" 2 false; mk_le "y" 2 false]%string.
Proof. split; reflexivity. Qed.

Print Assumptions lag_sides_spec.
Print Assumptions lag_sides_refuted.
Print Assumptions lag_indices_increase.
Print Assumptions lag_indices_unique.
Print Assumptions lag_link_index.
Print Assumptions mlag_indices_match.
Print Assumptions lag_interface_index_refuted.
Print Assumptions lag_link_index_refuted.
Print Assumptions mlag_indices_refuted.
Print Assumptions mlag_peer_addresses.
Print Assumptions mlag_macs_unique.
Print Assumptions lag_side_choice.
Print Assumptions mlag_index_not_on_links.
Print Assumptions plain_side_indices.
