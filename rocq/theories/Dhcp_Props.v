(* Properties of the DHCP module (Dhcp_Model). *)
From Coq Require Import String Ascii ZArith Lia Bool Arith List.
From Verif Require Import Base Dhcp_Model.
Import ListNotations.

(* ================= DHCP clients on links ================= *)

(* the interface asks for a DHCP address: by its address, its own setting, or the link setting *)
Definition asks (i : dintf) (af : string) : Prop := dget af (di_addr i) = Some (DvStr "dhcp").

Definition is_bridged (i : dintf) : Prop := di_mode i = Some "bridge"%string \/ di_mode i = Some "irb"%string.

Definition wants (lc : dict bool) (i : dintf) (af : string) : Prop :=
  asks i af \/ dget af (di_client i) = Some true
  \/ (dget af lc = Some true /\ dget af (di_client i) <> Some false /\ ~ is_bridged i).

(* asking for an address on a link where DHCP is switched off *)
Definition rejected (lc : dict bool) (i : dintf) (af : string) : Prop := asks i af /\ dget af lc = Some false.

(* the client is taken into account on its node and link *)
Definition active (lc : dict bool) (i : dintf) (af : string) : Prop :=
  wants lc i af /\ ~ rejected lc i af /\ ~ (dget af lc = Some true /\ is_bridged i).

Definition asks_b (i : dintf) (af : string) : bool := is_dhcp (dget af (di_addr i)).
Definition wants_b (lc : dict bool) (i : dintf) (af : string) : bool :=
  asks_b i af || is_some_true (dget af (di_client i))
  || (is_some_true (dget af lc) && negb (is_some_false (dget af (di_client i))) && negb (bridged (di_mode i))).
Definition rejected_b (lc : dict bool) (i : dintf) (af : string) : bool := asks_b i af && is_some_false (dget af lc).
Definition active_b (lc : dict bool) (i : dintf) (af : string) : bool :=
  wants_b lc i af && negb (rejected_b lc i af) && negb (is_some_true (dget af lc) && bridged (di_mode i)).

Lemma st_true : forall o, is_some_true o = true <-> o = Some true.
Proof. intros [[|]|]; simpl; split; congruence. Qed.
Lemma st_false : forall o, is_some_false o = true <-> o = Some false.
Proof. intros [[|]|]; simpl; split; congruence. Qed.
Lemma bridged_spec : forall i, bridged (di_mode i) = true <-> is_bridged i.
Proof.
  intros i. unfold bridged, is_bridged. destruct (di_mode i) as [s|]; [|split; [discriminate|intros [H|H]; discriminate]].
  rewrite memS_true. simpl. split.
  - intros [<-|[<-|[]]]; auto.
  - intros [H|H]; injection H as ->; auto.
Qed.
Lemma asks_spec : forall i af, asks_b i af = true <-> asks i af.
Proof.
  intros i af. unfold asks_b, asks, is_dhcp. destruct (dget af (di_addr i)) as [[s| |]|]; try (split; congruence).
  rewrite String.eqb_eq. split; congruence.
Qed.
Lemma not_true : forall b, b = false <-> b <> true.
Proof. intros []; split; congruence. Qed.
Lemma wants_spec : forall lc i af, wants_b lc i af = true <-> wants lc i af.
Proof.
  intros lc i af. unfold wants_b, wants.
  rewrite !orb_true_iff, !andb_true_iff, !negb_true_iff, !not_true, asks_spec, !st_true, st_false, bridged_spec. tauto.
Qed.
Lemma rejected_spec : forall lc i af, rejected_b lc i af = true <-> rejected lc i af.
Proof. intros. unfold rejected_b, rejected. now rewrite andb_true_iff, asks_spec, st_false. Qed.
Lemma active_spec : forall lc i af, active_b lc i af = true <-> active lc i af.
Proof.
  intros lc i af. unfold active_b, active.
  rewrite !andb_true_iff, !negb_true_iff, !not_true, wants_spec, rejected_spec, andb_true_iff, st_true, bridged_spec. tauto.
Qed.

(* what does not change *)
Definition same_rest (i j : dintf) : Prop :=
  di_node j = di_node i /\ di_index j = di_index i /\ di_mode j = di_mode i /\ di_server j = di_server i
  /\ di_vrf j = di_vrf i /\ di_vlan j = di_vlan i /\ di_relay j = di_relay i.

Lemma dpop_get : forall (A : Type) k x (d : dict A), dget x (dpop k d) = if String.eqb x k then None else dget x d.
Proof.
  intros A k x d. destruct (String.eqb_spec x k) as [->|E].
  - now apply dget_dpop_same.
  - now apply dget_dpop_other.
Qed.

Lemma dset_get : forall (A : Type) k x v (d : dict A), dget x (dset k v d) = if String.eqb x k then Some v else dget x d.
Proof.
  intros A k x v d. destruct (String.eqb_spec x k) as [->|E].
  - now apply dget_dset_same.
  - now apply dget_dset_other.
Qed.

Definition add_error (i : dintf) (af : string) (st : pstate) : pstate :=
  mk_ps (ps_subnet st) (ps_mods st) (ps_err st ++ [(di_node i, af)]).

Lemma pre_af_spec : forall lc af i st,
  let '(i', st') := pre_af lc af i st in
  same_rest i i'
  /\ (forall k, dget k (di_client i') = if String.eqb k af && wants_b lc i af then Some true else dget k (di_client i))
  /\ (forall k, dget k (di_addr i') = if String.eqb k af && asks_b i af then None else dget k (di_addr i))
  /\ st' = (if rejected_b lc i af then add_error i af st else if active_b lc i af then activate af i st else st).
Proof.
  intros lc af i st. unfold pre_af, active_b, rejected_b, wants_b. fold (asks_b i af).
  destruct (asks_b i af) eqn:A; simpl.
  - set (i1 := set_client _ _).
    assert (C1 : forall k, dget k (di_client i1) = if String.eqb k af && true then Some true else dget k (di_client i)).
    { intros k. rewrite andb_true_r. unfold i1. simpl. apply dset_get. }
    assert (D1 : forall k, dget k (di_addr i1) = if String.eqb k af && true then None else dget k (di_addr i)).
    { intros k. rewrite andb_true_r. unfold i1. simpl. apply dpop_get. }
    assert (R1 : same_rest i i1) by (unfold same_rest, i1; simpl; auto 10).
    assert (T : dget af (di_client i1) = Some true) by (rewrite C1, String.eqb_refl; reflexivity).
    destruct (is_some_false (dget af lc)) eqn:Fl; simpl.
    + repeat (split; [assumption|]). reflexivity.
    + change (dset af true (di_client i)) with (di_client i1). rewrite T. simpl. rewrite andb_true_r.
      destruct (is_some_true (dget af lc)) eqn:Tl; simpl.
      * destruct (bridged (di_mode i)) eqn:B; simpl.
        -- repeat (split; [assumption|]). reflexivity.
        -- split; [exact R1|]. split.
           ++ intros k. rewrite dset_get. destruct (String.eqb k af) eqn:E; auto. rewrite C1, E. reflexivity.
           ++ split; [exact D1|reflexivity].
      * repeat (split; [assumption|]). reflexivity.
  - destruct (is_some_true (dget af lc)) eqn:Tl; simpl.
    + destruct (is_some_false (dget af (di_client i))) eqn:Fc; simpl.
      * assert (Tc : is_some_true (dget af (di_client i)) = false) by (destruct (dget af (di_client i)) as [[|]|]; simpl in *; congruence).
        rewrite Tc. simpl. repeat split; auto; intros k; now rewrite andb_false_r.
      * destruct (bridged (di_mode i)) eqn:B; simpl.
        -- rewrite andb_false_r. split; [unfold same_rest; auto 10|].
           split; [|split; [intros k; now rewrite andb_false_r|reflexivity]].
           intros k. rewrite orb_false_r. destruct (is_some_true (dget af (di_client i))) eqn:Tc.
           ++ rewrite andb_true_r. destruct (String.eqb_spec k af) as [->|]; auto. now apply st_true in Tc.
           ++ now rewrite andb_false_r.
        -- rewrite orb_true_r. simpl. split; [unfold same_rest; simpl; auto 10|].
           split; [|split; [intros k; now rewrite andb_false_r|reflexivity]].
           intros k. rewrite andb_true_r. apply dset_get.
    + rewrite orb_false_r. destruct (is_some_true (dget af (di_client i))) eqn:Tc; simpl.
      * split; [unfold same_rest; auto 10|].
        split; [|split; [intros k; now rewrite andb_false_r|reflexivity]].
        intros k. rewrite andb_true_r. destruct (String.eqb_spec k af) as [->|]; auto. now apply st_true in Tc.
      * split; [unfold same_rest; auto 10|].
        split; [intros k; now rewrite andb_false_r|]. split; [intros k; now rewrite andb_false_r|reflexivity].
Qed.

(* effect on the state *)
Definition step_state (lc : dict bool) (i : dintf) (af : string) (st : pstate) : pstate :=
  if rejected_b lc i af then add_error i af st else if active_b lc i af then activate af i st else st.

Lemma pre_afs_spec : forall lc i st,
  let '(i', st') := pre_afs lc AFS i st in
  same_rest i i'
  /\ (forall k, dget k (di_client i') = if memS k AFS && wants_b lc i k then Some true else dget k (di_client i))
  /\ (forall k, dget k (di_addr i') = if memS k AFS && asks_b i k then None else dget k (di_addr i))
  /\ st' = step_state lc i "ipv6" (step_state lc i "ipv4" st).
Proof.
  intros lc i st. unfold AFS. simpl pre_afs.
  pose proof (pre_af_spec lc "ipv4" i st) as P. destruct (pre_af lc "ipv4" i st) as [i1 st1].
  destruct P as [R1 [C1 [D1 S1]]].
  pose proof (pre_af_spec lc "ipv6" i1 st1) as P. destruct (pre_af lc "ipv6" i1 st1) as [i2 st2].
  destruct P as [R2 [C2 [D2 S2]]].
  assert (Sm : forall af, af <> "ipv4"%string -> asks_b i1 af = asks_b i af /\ wants_b lc i1 af = wants_b lc i af).
  { intros af N. unfold wants_b, asks_b. rewrite C1, D1. apply String.eqb_neq in N. rewrite N. simpl.
    destruct R1 as [_ [_ [-> _]]]. auto. }
  destruct (Sm "ipv6"%string) as [A6 V6]; [discriminate|].
  split; [|split; [|split]].
  - unfold same_rest in *. intuition congruence.
  - intros k. rewrite C2, V6, C1. unfold memS. simpl.
    destruct (String.eqb_spec k "ipv6") as [->|N6]; simpl; auto.
    destruct (String.eqb_spec k "ipv4") as [->|N4]; simpl; auto.
  - intros k. rewrite D2, A6, D1. unfold memS. simpl.
    destruct (String.eqb_spec k "ipv6") as [->|N6]; simpl; auto.
    destruct (String.eqb_spec k "ipv4") as [->|N4]; simpl; auto.
  - subst st1 st2. unfold step_state.
    assert (Rj : rejected_b lc i1 "ipv6" = rejected_b lc i "ipv6") by (unfold rejected_b; now rewrite A6).
    assert (Ac : active_b lc i1 "ipv6" = active_b lc i "ipv6").
    { unfold active_b. rewrite V6, Rj. destruct R1 as [_ [_ [-> _]]]. reflexivity. }
    rewrite Rj, Ac. unfold add_error, activate. destruct R1 as [-> _]. reflexivity.
Qed.

Definition act_any (lc : dict bool) (i : dintf) : bool := active_b lc i "ipv4" || active_b lc i "ipv6".

Lemma append_twice : forall x l, append_to_list x (append_to_list x l) = append_to_list x l.
Proof.
  intros x l. unfold append_to_list. destruct (memS x l) eqn:E; [now rewrite E|].
  unfold memS. rewrite existsb_app. simpl. rewrite String.eqb_refl, orb_true_r. reflexivity.
Qed.

Lemma act_not_rej : forall lc i af, active_b lc i af = true -> rejected_b lc i af = false.
Proof. intros lc i af H. unfold active_b in H. destruct (rejected_b lc i af); auto. rewrite andb_false_r in H. discriminate. Qed.

Lemma step_state_spec : forall lc i af st,
  (forall k, dget k (ps_subnet (step_state lc i af st)) =
     if String.eqb k af && active_b lc i af then Some true else dget k (ps_subnet st))
  /\ (forall n, dget n (ps_mods (step_state lc i af st)) =
     if String.eqb n (di_node i) && active_b lc i af then option_map (append_to_list "dhcp") (dget n (ps_mods st))
     else dget n (ps_mods st))
  /\ ps_err (step_state lc i af st) = ps_err st ++ (if rejected_b lc i af then [(di_node i, af)] else []).
Proof.
  intros lc i af st. unfold step_state.
  destruct (active_b lc i af) eqn:A.
  - rewrite (act_not_rej _ _ _ A). split; [|split].
    + intros k. simpl. rewrite andb_true_r. apply dset_get.
    + intros n. simpl. rewrite andb_true_r. destruct (dget (di_node i) (ps_mods st)) as [m|] eqn:M.
      * rewrite dset_get. destruct (String.eqb_spec n (di_node i)) as [->|]; auto. now rewrite M.
      * destruct (String.eqb_spec n (di_node i)) as [->|]; auto. now rewrite M.
    + simpl. now rewrite app_nil_r.
  - destruct (rejected_b lc i af); simpl; (split; [|split]); intros; rewrite ?andb_false_r, ?app_nil_r; auto.
Qed.

Lemma existsb_ext' : forall (A : Type) (p q : A -> bool) l, (forall x, p x = q x) -> existsb p l = existsb q l.
Proof. intros A p q l H. induction l as [|x r IH]; simpl; auto. now rewrite H, IH. Qed.

Lemma pre_intfs_cons : forall lc i r st, pre_intfs lc (i :: r) st =
  let '(i', st') := if dmem (di_node i) (ps_mods st) then pre_afs lc AFS i st else (i, st) in
  let '(r', st'') := pre_intfs lc r st' in (i' :: r', st'').
Proof. reflexivity. Qed.

Lemma pre_intfs_spec : forall lc l st,
  let '(l', st') := pre_intfs lc l st in
  Forall2 (fun i i' => same_rest i i' /\
     (dmem (di_node i) (ps_mods st) = false -> i' = i) /\
     (dmem (di_node i) (ps_mods st) = true ->
       (forall k, dget k (di_client i') = if memS k AFS && wants_b lc i k then Some true else dget k (di_client i))
       /\ (forall k, dget k (di_addr i') = if memS k AFS && asks_b i k then None else dget k (di_addr i)))) l l'
  /\ (forall k, dget k (ps_subnet st') =
       if memS k AFS && existsb (fun i => dmem (di_node i) (ps_mods st) && active_b lc i k) l then Some true else dget k (ps_subnet st))
  /\ (forall n, dget n (ps_mods st') =
       if existsb (fun i => String.eqb n (di_node i) && act_any lc i) l
       then option_map (append_to_list "dhcp") (dget n (ps_mods st)) else dget n (ps_mods st))
  /\ ps_err st' = ps_err st ++ flat_map (fun i => if dmem (di_node i) (ps_mods st) then
        flat_map (fun af => if rejected_b lc i af then [(di_node i, af)] else []) AFS else []) l.
Proof.
  intros lc l. induction l as [|i r IH]; intros st.
  - simpl. split; [constructor|]. split; [intros; now rewrite andb_false_r|]. split; auto. now rewrite app_nil_r.
  - rewrite pre_intfs_cons.
    set (p := if dmem (di_node i) (ps_mods st) then pre_afs lc AFS i st else (i, st)).
    assert (P : let '(i', st') := p in
      same_rest i i'
      /\ (dmem (di_node i) (ps_mods st) = false -> i' = i)
      /\ (dmem (di_node i) (ps_mods st) = true ->
         (forall k, dget k (di_client i') = if memS k AFS && wants_b lc i k then Some true else dget k (di_client i))
         /\ (forall k, dget k (di_addr i') = if memS k AFS && asks_b i k then None else dget k (di_addr i)))
      /\ (forall k, dget k (ps_subnet st') =
           if memS k AFS && (dmem (di_node i) (ps_mods st) && active_b lc i k) then Some true else dget k (ps_subnet st))
      /\ (forall n, dget n (ps_mods st') =
           if String.eqb n (di_node i) && act_any lc i then option_map (append_to_list "dhcp") (dget n (ps_mods st))
           else dget n (ps_mods st))
      /\ ps_err st' = ps_err st ++ (if dmem (di_node i) (ps_mods st) then
           flat_map (fun af => if rejected_b lc i af then [(di_node i, af)] else []) AFS else [])).
    { unfold p. destruct (dmem (di_node i) (ps_mods st)) eqn:M.
      - pose proof (pre_afs_spec lc i st) as Q. destruct (pre_afs lc AFS i st) as [i' st'].
        destruct Q as [R [C [D S]]]. split; [exact R|]. split; [discriminate|]. split; [auto|].
        destruct (step_state_spec lc i "ipv4" st) as [S1 [S2 S3]].
        destruct (step_state_spec lc i "ipv6" (step_state lc i "ipv4" st)) as [T1 [T2 T3]].
        subst st'. split; [|split].
        + intros k. rewrite T1, S1. unfold memS, AFS. simpl.
          destruct (String.eqb_spec k "ipv6") as [->|]; simpl; auto.
          destruct (String.eqb_spec k "ipv4") as [->|]; simpl; auto.
        + intros n. rewrite T2, S2. unfold act_any. destruct (String.eqb n (di_node i)); simpl; auto.
          destruct (active_b lc i "ipv4"), (active_b lc i "ipv6"); simpl; auto.
          destruct (dget n (ps_mods st)); simpl; auto. now rewrite append_twice.
        + rewrite T3, S3. unfold AFS. simpl. now rewrite app_nil_r, <- app_assoc.
      - split; [unfold same_rest; auto 10|]. split; [auto|]. split; [discriminate|].
        split; [intros; now rewrite andb_false_r|]. split; [|now rewrite app_nil_r].
        intros n. destruct (String.eqb_spec n (di_node i)) as [->|]; auto. simpl.
        unfold dmem in M. destruct (dget (di_node i) (ps_mods st)); [discriminate|]. now destruct (act_any lc i). }
    clearbody p. destruct p as [i' st1]. destruct P as [P1 [P2 [P3 [P4 [P5 P6]]]]].
    specialize (IH st1). destruct (pre_intfs lc r st1) as [r' st2].
    destruct IH as [I1 [I2 [I3 I4]]].
    assert (Dm : forall n, dmem n (ps_mods st1) = dmem n (ps_mods st)).
    { intros n. unfold dmem. rewrite P5. destruct (_ && _); auto. now destruct (dget n (ps_mods st)). }
    split; [|split; [|split]].
    + constructor; auto.
      clear -I1 Dm. induction I1 as [|a b l l' H F IH]; constructor; auto. now rewrite Dm in H.
    + intros k. rewrite I2, P4. simpl existsb.
      rewrite (existsb_ext' _ (fun i0 => dmem (di_node i0) (ps_mods st1) && active_b lc i0 k)
                 (fun i0 => dmem (di_node i0) (ps_mods st) && active_b lc i0 k)).
      * destruct (memS k AFS); simpl; auto.
        destruct (existsb _ r); destruct (dmem (di_node i) (ps_mods st) && active_b lc i k); reflexivity.
      * intros x. now rewrite Dm.
    + intros n. rewrite I3, P5. simpl existsb. destruct (String.eqb n (di_node i) && act_any lc i); simpl.
      * destruct (existsb _ r); auto. destruct (dget n (ps_mods st)); simpl; auto. now rewrite append_twice.
      * reflexivity.
    + rewrite I4, P6, <- app_assoc. f_equal. simpl. f_equal. clear -Dm.
      induction r as [|x q IH]; simpl; auto. now rewrite Dm, IH.
Qed.

Definition known (st : pstate) (i : dintf) : Prop := dmem (di_node i) (ps_mods st) = true.
Definition is_af (af : string) : Prop := af = "ipv4"%string \/ af = "ipv6"%string.

Lemma is_af_mem : forall af, is_af af <-> memS af AFS = true.
Proof. intros af. rewrite memS_true. unfold is_af, AFS. simpl. intuition. Qed.

Lemma F2_mono : forall (A B : Type) (P Q : A -> B -> Prop) l l',
  (forall a b, In a l -> P a b -> Q a b) -> Forall2 P l l' -> Forall2 Q l l'.
Proof.
  intros A B P Q l l' H F. induction F as [|a b l l' p F IH]; constructor.
  - apply H; simpl; auto.
  - apply IH. intros. apply H; simpl; auto.
Qed.

(* C91: the interfaces of a link after the DHCP module looked at them *)
Theorem dhcp_client_interfaces : forall lc l st l' st',
  pre_intfs lc l st = (l', st') ->
  Forall2 (fun i i' =>
    same_rest i i'
    /\ (~ known st i -> i' = i)
    /\ (known st i -> forall af, is_af af ->
         (wants lc i af -> dget af (di_client i') = Some true)
         /\ (~ wants lc i af -> dget af (di_client i') = dget af (di_client i) /\ dget af (di_client i') <> Some true)
         /\ (asks i af -> dget af (di_addr i') = None)
         /\ (~ asks i af -> dget af (di_addr i') = dget af (di_addr i)))) l l'.
Proof.
  intros lc l st l' st' E. pose proof (pre_intfs_spec lc l st) as P. rewrite E in P. destruct P as [P _].
  eapply F2_mono; [|exact P]. intros i i' _ [R [U K]]. split; [exact R|]. split.
  - intros N. apply U. unfold known in N. now destruct (dmem _ _).
  - intros Kn af A. destruct (K Kn) as [C D]. apply is_af_mem in A.
    specialize (C af). specialize (D af). rewrite A in C, D. simpl in C, D.
    split; [|split; [|split]].
    + intros W. apply wants_spec in W. now rewrite W in C.
    + intros W. destruct (wants_b lc i af) eqn:B; [apply wants_spec in B; contradiction|].
      split; auto. rewrite C. intros T. apply W. right. left. exact T.
    + intros W. apply asks_spec in W. now rewrite W in D.
    + intros W. destruct (asks_b i af) eqn:B; [apply asks_spec in B; contradiction|]. auto.
Qed.

(* C91: which links are DHCP subnets, which nodes use the module, and which interfaces are reported *)
Theorem dhcp_client_effects : forall lc l st l' st',
  pre_intfs lc l st = (l', st') ->
  (forall af, is_af af -> (dget af (ps_subnet st') = Some true <->
     dget af (ps_subnet st) = Some true \/ exists i, In i l /\ known st i /\ active lc i af))
  /\ (forall n m, dget n (ps_mods st) = Some m -> exists m', dget n (ps_mods st') = Some m' /\
       forall x, In x m' <-> In x m \/ (x = "dhcp"%string /\ exists i af, In i l /\ di_node i = n /\ is_af af /\ active lc i af))
  /\ (forall n af, In (n, af) (ps_err st') <->
       In (n, af) (ps_err st) \/ exists i, In i l /\ di_node i = n /\ known st i /\ is_af af /\ rejected lc i af).
Proof.
  intros lc l st l' st' E. pose proof (pre_intfs_spec lc l st) as P. rewrite E in P. destruct P as [_ [S [M Er]]].
  split; [|split].
  - intros af A. apply is_af_mem in A. rewrite S, A. simpl.
    destruct (existsb (fun i => dmem (di_node i) (ps_mods st) && active_b lc i af) l) eqn:X.
    + split; auto. intros _. right. apply existsb_exists in X. destruct X as [i [I H]].
      apply andb_true_iff in H. destruct H as [H1 H2]. exists i. split; [auto|]. split; auto. now apply active_spec.
    + split; auto. intros [H|[i [I [K H]]]]; auto. exfalso. apply not_true_iff_false in X. apply X.
      apply existsb_exists. exists i. split; auto. apply andb_true_iff. split; auto. now apply active_spec.
  - intros n m G. specialize (M n). rewrite G in M. simpl in M.
    set (b := existsb (fun i => String.eqb n (di_node i) && act_any lc i) l) in *.
    assert (Bs : b = true <-> exists i af, In i l /\ di_node i = n /\ is_af af /\ active lc i af).
    { unfold b. rewrite existsb_exists. split.
      - intros [i [I H]]. apply andb_true_iff in H. destruct H as [H1 H2]. apply String.eqb_eq in H1.
        unfold act_any in H2. apply orb_true_iff in H2. destruct H2 as [H2|H2]; apply active_spec in H2.
        + exists i, "ipv4"%string. unfold is_af. auto.
        + exists i, "ipv6"%string. unfold is_af. auto.
      - intros [i [af [I [H1 [[-> | ->] H2]]]]]; exists i; split; auto; subst n; rewrite String.eqb_refl;
          apply active_spec in H2; unfold act_any; rewrite H2; simpl; auto. now rewrite orb_true_r. }
    exists (if b then append_to_list "dhcp" m else m). split; [now destruct b|].
    intros x. rewrite <- Bs. destruct b.
    + unfold append_to_list. destruct (memS "dhcp" m) eqn:Q.
      * apply memS_true in Q. split; auto. intros [H|[-> _]]; auto.
      * rewrite in_app_iff. simpl. intuition.
    + split; auto. intros [H|[_ H]]; auto. discriminate.
  - intros n af. rewrite Er, in_app_iff, in_flat_map.
    assert (G : (exists i, In i l /\ In (n, af) (if dmem (di_node i) (ps_mods st) then
        flat_map (fun af0 => if rejected_b lc i af0 then [(di_node i, af0)] else []) AFS else []))
      <-> exists i, In i l /\ di_node i = n /\ known st i /\ is_af af /\ rejected lc i af).
    { split.
      - intros [i [I H]]. exists i. unfold known. destruct (dmem (di_node i) (ps_mods st)); [|destruct H].
        apply in_flat_map in H. destruct H as [a [A H]]. destruct (rejected_b lc i a) eqn:R; [|destruct H].
        apply rejected_spec in R. destruct H as [H|[]]. injection H as <- <-.
        apply memS_true in A. apply is_af_mem in A. auto.
      - intros [i [I [<- [K [A R]]]]]. exists i. split; auto. unfold known in K. rewrite K.
        apply in_flat_map. exists af. apply rejected_spec in R. rewrite R. simpl.
        split; auto. apply is_af_mem in A. now apply memS_true in A. }
    rewrite G. reflexivity.
Qed.

(* C91: without VLAN bridging and without reported interfaces, the DHCP subnets are those with a DHCP client *)
Theorem dhcp_subnets : forall lc l mods l' st',
  pre_intfs lc l (mk_ps [] mods []) = (l', st') ->
  ps_err st' = [] ->
  (forall i, In i l -> dmem (di_node i) mods = true /\ ~ is_bridged i) ->
  forall af, is_af af ->
    (dget af (ps_subnet st') = Some true <-> exists i', In i' l' /\ dget af (di_client i') = Some true).
Proof.
  intros lc l mods l' st' E Er H af A.
  destruct (dhcp_client_effects _ _ _ _ _ E) as [S [_ R]].
  pose proof (dhcp_client_interfaces _ _ _ _ _ E) as F.
  rewrite (S af A). simpl.
  assert (Ac : forall i, In i l -> (active lc i af <-> wants lc i af)).
  { intros i I. unfold active. split; [tauto|]. intros W. split; auto. split.
    - intros J. assert (X : In (di_node i, af) (ps_err st')).
      { apply R. right. exists i. unfold known. simpl. destruct (H i I). auto. }
      rewrite Er in X. exact X.
    - intros [_ B]. destruct (H i I). contradiction. }
  assert (G : (exists i, In i l /\ wants lc i af) <-> exists i', In i' l' /\ dget af (di_client i') = Some true).
  { assert (K : forall i, In i l -> known (mk_ps [] mods []) i) by (intros i I; destruct (H i I); auto).
    clear -F A K. induction F as [|i i' l l' P F IH].
    - split; intros [x [[] _]].
    - assert (K' : forall x, In x l -> known (mk_ps [] mods []) x) by (intros; apply K; simpl; auto).
      specialize (IH K'). destruct P as [_ [_ P]]. destruct (P (K i (or_introl eq_refl)) af A) as [P1 [P2 _]].
      split.
      + intros [x [[<-|X] W]]; [exists i'; simpl; auto|].
        destruct (proj1 IH) as [y [Y1 Y2]]; eauto. exists y. simpl; auto.
      + intros [y [[<-|Y] W]].
        * exists i. split; [simpl; auto|]. destruct (wants_b lc i af) eqn:B; [now apply wants_spec|].
          exfalso. apply P2; auto. intros Q. apply wants_spec in Q. congruence.
        * destruct (proj2 IH) as [x [X1 X2]]; eauto. exists x. simpl; auto. }
  rewrite <- G. split.
  - intros [X|[i [I [_ W]]]]; [discriminate|]. exists i. split; auto. apply (proj1 (Ac i I)); exact W.
  - intros [i [I W]]. right. exists i. split; [auto|]. split; [destruct (H i I) as [K _]; exact K|apply (proj2 (Ac i I)); exact W].
Qed.

Definition di0 (node : string) (a : dict dval) (c : dict bool) (mode : option string) : dintf :=
  mk_di node 1 a c mode [] None None [].

Example ex_dhcp_link :
  pre_intfs [("ipv4", true)]%string
    [di0 "h1" [] [] None; di0 "r1" [("ipv4", DvStr "10.0.0.1/24")] [("ipv4", false)] None;
     di0 "h2" [("ipv6", DvStr "dhcp")] [("ipv4", false)] None]%string
    (mk_ps [] [("h1", []); ("r1", ["ospf"]); ("h2", ["dhcp"])]%string [])
  = ([di0 "h1" [] [("ipv4", true)] None; di0 "r1" [("ipv4", DvStr "10.0.0.1/24")] [("ipv4", false)] None;
      di0 "h2" [] [("ipv4", false); ("ipv6", true)] None]%string,
     mk_ps [("ipv4", true); ("ipv6", true)]%string [("h1", ["dhcp"]); ("r1", ["ospf"]); ("h2", ["dhcp"])]%string []).
Proof. reflexivity. Qed.

(* C91, refuted for VLANs: a DHCP client explicitly configured on an IRB interface is not taken into account on a link
   with link-level DHCP clients *)
Theorem dhcp_irb_client_refuted : exists lc l mods l' st' i',
  pre_intfs lc l (mk_ps [] mods []) = (l', st') /\ ps_err st' = []
  /\ In i' l' /\ dget "ipv4" (di_client i') = Some true /\ dget (di_node i') mods <> None
  /\ dget "ipv4" (ps_subnet st') = None
  /\ dget (di_node i') (ps_mods st') = Some [].
Proof.
  exists [("ipv4"%string, true)], [di0 "s1" [("ipv4"%string, DvStr "dhcp")] [] (Some "irb"%string)], [("s1"%string, [])].
  eexists. eexists. exists (di0 "s1" [] [("ipv4"%string, true)] (Some "irb"%string)).
  split; [reflexivity|]. simpl. repeat split; auto; discriminate.
Qed.

(* ================= device support ================= *)

Definition relays (i : dintf) : Prop := di_server i <> [].

(* clients on relays and servers are removed *)
Definition kept_client (node_server : bool) (i : dintf) : dict bool :=
  if node_server then [] else match di_server i with [] => di_client i | _ => [] end.

Definition client_supported (f : dfeatures) (node_server : bool) (i : dintf) : Prop :=
  forall af, is_af af -> In af (dkeys (kept_client node_server i)) -> In af (df_client f).

Definition relay_supported (f : dfeatures) (is_server : string -> bool) (vrfs : list string) (i : dintf) : Prop :=
  relays i ->
  df_relay f <> RfNone
  /\ (forall s, In s (di_server i) -> is_server s = true)
  /\ (forall v, v <> ""%string -> di_vrf i = Some v -> df_vrf f = true /\ (v = "global"%string \/ In v vrfs)).

Lemma app_nil_iff : forall (A : Type) (a b : list A), a ++ b = [] <-> a = [] /\ b = [].
Proof. intros A a b. split; [apply app_eq_nil|intros [-> ->]; reflexivity]. Qed.

Lemma flat_nil : forall (A B : Type) (g : A -> list B) l, flat_map g l = [] <-> forall x, In x l -> g x = [].
Proof.
  intros A B g l. induction l as [|x r IH]; simpl; [intuition|].
  rewrite app_nil_iff, IH. split; [intros [H1 H2] y [<-|Y]; auto|intros H; split; auto].
Qed.

Lemma check_client_spec : forall f ns k i,
  di_client (fst (check_client f ns k i)) = kept_client ns i
  /\ di_addr (fst (check_client f ns k i)) = di_addr i
  /\ same_rest i (fst (check_client f ns k i))
  /\ (snd (check_client f ns k i) = [] <-> client_supported f ns i).
Proof.
  intros f ns k i. unfold check_client, kept_client, client_supported, kept_client.
  destruct (di_client i) as [|c0 cs] eqn:C.
  - simpl. split; [destruct ns; auto; rewrite C; destruct (di_server i); auto|].
    split; auto. split; [unfold same_rest; auto 10|]. split; auto.
    intros _ af _ H. destruct ns; [destruct H|]. destruct (di_server i); destruct H.
  - destruct ns.
    + assert (T : match di_server i with [] => true | _ => true end = true) by (destruct (di_server i); auto).
      rewrite T. simpl. split; auto. split; auto. split; [unfold same_rest; simpl; auto 10|].
      split; auto. intros _ af _ [].
    + destruct (di_server i) as [|s0 ss] eqn:S; cbn [fst snd].
      * split; auto. split; auto. split; [unfold same_rest; auto 10|].
        rewrite flat_nil. split.
        -- intros H af A K. assert (A' : In af AFS) by (apply is_af_mem in A; now apply memS_true in A).
           specialize (H af A'). rewrite <- C in K. apply dmem_true in K. rewrite C in K. rewrite K in H. simpl in H.
           destruct (memS af (df_client f)) eqn:M; [now apply memS_true in M|discriminate].
        -- intros H af A. destruct (dmem af (c0 :: cs)) eqn:D; auto. simpl.
           destruct (memS af (df_client f)) eqn:M; auto. apply memS_false in M. exfalso. apply M. apply H.
           ++ apply is_af_mem. now apply memS_true.
           ++ now apply dmem_true in D.
      * split; auto. split; auto. split; [unfold same_rest; simpl; auto 10|].
        split; auto. intros _ af _ [].
Qed.

Lemma check_clients_spec : forall f ns l k,
  Forall2 (fun i i' => di_client i' = kept_client ns i /\ di_addr i' = di_addr i /\ same_rest i i') l (fst (check_clients f ns k l))
  /\ (snd (check_clients f ns k l) = [] <-> forall i, In i l -> client_supported f ns i).
Proof.
  intros f ns l. induction l as [|i r IH]; intros k; simpl.
  - split; [constructor|]. intuition.
  - destruct (check_client_spec f ns k i) as [C1 [C2 [C3 C4]]]. destruct (check_client f ns k i) as [i' e].
    destruct (IH (S k)) as [I1 I2]. destruct (check_clients f ns (S k) r) as [r' es]. simpl in *.
    split; [constructor; auto|]. rewrite app_nil_iff, C4, I2. split; [intros [H1 H2] x [<-|X]; auto|intros H; split; auto].
Qed.

Lemma check_relay_spec : forall f sv vrfs k i, fst (check_relay f sv vrfs k i) = [] <-> relay_supported f sv vrfs i.
Proof.
  intros f sv vrfs k i. unfold check_relay, relay_supported, relays.
  destruct (di_server i) as [|s0 ss]; [simpl; split; auto; intros _ H; congruence|].
  cbn [fst]. rewrite !app_nil_iff, flat_nil.
  assert (A : (match df_relay f with RfNone => [NoRelay k] | _ => [] end = [] <-> df_relay f <> RfNone)).
  { destruct (df_relay f); split; congruence. }
  rewrite A.
  assert (B : (forall x, In x (s0 :: ss) -> (if sv x then [] else [BadServer k x]) = []) <-> forall s, In s (s0 :: ss) -> sv s = true).
  { split; intros H s I; specialize (H s I); destruct (sv s); congruence. }
  rewrite B.
  assert (C : (match di_vrf i with
                | Some EmptyString | None => []
                | Some v => (if df_vrf f then [] else [NoInterVRF k])
                    ++ (if String.eqb v "global" then [] else if memS v vrfs then [] else [NoVRF k v])
                end = [] <-> (forall v, v <> ""%string -> di_vrf i = Some v -> df_vrf f = true /\ (v = "global"%string \/ In v vrfs)))).
  { destruct (di_vrf i) as [[|c v]|]; [split; auto; intros _ x N H; congruence| |split; auto; intros _ x N H; congruence].
    set (w := String c v). rewrite app_nil_iff. split.
    - intros [H1 H2] x _ E. injection E as <-. destruct (df_vrf f); [|discriminate]. split; auto.
      destruct (String.eqb_spec w "global") as [Q|Q]; auto. right.
      destruct (memS w vrfs) eqn:M; [now apply memS_true in M|discriminate].
    - intros H. destruct (H w) as [H1 H2]; [discriminate|reflexivity|]. rewrite H1. split; auto.
      destruct (String.eqb_spec w "global") as [Q|Q]; auto. destruct H2 as [H2|H2]; [contradiction|].
      apply memS_true in H2. now rewrite H2. }
  rewrite C. split; [auto|]. intros H. apply H. discriminate.
Qed.

Lemma check_relays_spec : forall f sv vrfs l k, fst (check_relays f sv vrfs k l) = [] <->
  forall i, In i l -> relay_supported f sv vrfs i.
Proof.
  intros f sv vrfs l. induction l as [|i r IH]; intros k; simpl; [intuition|].
  pose proof (check_relay_spec f sv vrfs k i) as H. destruct (check_relay f sv vrfs k i) as [e w].
  specialize (IH (S k)). destruct (check_relays f sv vrfs (S k) r) as [es ws]. simpl in *.
  rewrite app_nil_iff, H, IH. split; [intros [H1 H2] x [<-|X]; auto|intros G; split; auto].
Qed.

Definition node_supported (f : dfeatures) (sv : string -> bool) (n : dnode) : Prop :=
  (dn_server n = true -> df_server f = true)
  /\ forall i, In i (dn_intf n) -> client_supported f (dn_server n) i /\ relay_supported f sv (dn_vrfs n) i.

Lemma F2_In_r : forall (A B : Type) (P : A -> B -> Prop) l l' b, Forall2 P l l' -> In b l' -> exists a, In a l /\ P a b.
Proof.
  intros A B P l l' b F. induction F as [|x y l l' p F IH]; intros H; [destruct H|].
  destruct H as [<-|H]; [exists x; simpl; auto|]. destruct (IH H) as [a [I Q]]. exists a. simpl; auto.
Qed.
Lemma F2_In_l : forall (A B : Type) (P : A -> B -> Prop) l l' a, Forall2 P l l' -> In a l -> exists b, In b l' /\ P a b.
Proof.
  intros A B P l l' b F. induction F as [|x y l l' p F IH]; intros H; [destruct H|].
  destruct H as [<-|H]; [exists y; simpl; auto|]. destruct (IH H) as [a [I Q]]. exists a. simpl; auto.
Qed.

Lemma rel_sup_same : forall f sv vrfs i i', same_rest i i' -> (relay_supported f sv vrfs i <-> relay_supported f sv vrfs i').
Proof.
  intros f sv vrfs i i' [_ [_ [_ [S [V _]]]]]. unfold relay_supported, relays. now rewrite S, V.
Qed.

(* C92: the check succeeds exactly when the device supports all configured functions *)
Theorem dhcp_support_exact : forall f sv n n' ok e,
  check_protocol_support f sv n = (n', ok, e) ->
  (ok = true <-> node_supported f sv n)
  /\ (e = [] -> ok = true)
  /\ Forall2 (fun i i' => di_client i' = kept_client (dn_server n) i /\ di_addr i' = di_addr i /\ same_rest i i')
       (dn_intf n) (dn_intf n')
  /\ (dn_is_relay n' = true <-> dn_is_relay n = true \/ exists i, In i (dn_intf n) /\ relays i).
Proof.
  intros f sv n n' ok e E. unfold check_protocol_support in E.
  destruct (check_clients_spec f (dn_server n) (dn_intf n) 0) as [C1 C2].
  destruct (check_clients f (dn_server n) 0 (dn_intf n)) as [l1 e1]. simpl in C1, C2.
  pose proof (check_relays_spec f sv (dn_vrfs n) l1 0) as R.
  destruct (check_relays f sv (dn_vrfs n) 0 l1) as [e2 w]. simpl in R.
  injection E as <- <- <-. cbn [dn_intf dn_is_relay].
  set (e0 := if dn_server n && negb (df_server f) then [NotServer] else []).
  assert (E0 : e0 = [] <-> (dn_server n = true -> df_server f = true)).
  { unfold e0. destruct (dn_server n), (df_server f); simpl; split; auto; try discriminate. intros H. now specialize (H eq_refl). }
  split; [|split; [|split; [exact C1|]]].
  - assert (Q : (match e0 ++ e1 ++ e2 with [] => true | _ => false end) = true <-> e0 ++ e1 ++ e2 = []).
    { destruct (e0 ++ e1 ++ e2); split; congruence. }
    rewrite Q, !app_nil_iff, E0, C2, R. unfold node_supported. split.
    + intros [H0 [H1 H2]]. split; auto. intros i I. split; auto.
      destruct (F2_In_l _ _ _ _ _ i C1 I) as [i' [I' [_ [_ S]]]]. apply (rel_sup_same _ _ _ _ _ S). auto.
    + intros [H0 H]. split; auto. split; [intros i I; apply (H i I)|].
      intros i' I'. destruct (F2_In_r _ _ _ _ _ i' C1 I') as [i [I [_ [_ S]]]].
      apply (rel_sup_same _ _ _ _ _ S). apply (H i I).
  - rewrite !app_nil_iff. intros [-> [-> [-> _]]]. reflexivity.
  - rewrite orb_true_iff, existsb_exists.
    assert (G : (exists x, In x l1 /\ is_relay x = true) <-> exists i, In i (dn_intf n) /\ relays i).
    { assert (T : forall x, is_relay x = true <-> relays x).
      { intros x. unfold is_relay, relays. destruct (di_server x); split; congruence. }
      split.
      - intros [x [X H]]. destruct (F2_In_r _ _ _ _ _ x C1 X) as [i [I [_ [_ S]]]]. exists i. split; auto.
        apply T in H. unfold relays in *. destruct S as [_ [_ [_ [S _]]]]. now rewrite <- S.
      - intros [i [I H]]. destruct (F2_In_l _ _ _ _ _ i C1 I) as [x [X [_ [_ S]]]]. exists x. split; auto.
        apply T. unfold relays in *. destruct S as [_ [_ [_ [S _]]]]. now rewrite S. }
    rewrite G. reflexivity.
Qed.

(* what is wrong with a node *)
Definition wrong (f : dfeatures) (sv : string -> bool) (n : dnode) (x : dhcp_error) : Prop :=
  match x with
  | NotServer => dn_server n = true /\ df_server f = false
  | NoClient k af => exists i, nth_error (dn_intf n) k = Some i /\ is_af af
      /\ In af (dkeys (kept_client (dn_server n) i)) /\ ~ In af (df_client f)
  | NoRelay k => exists i, nth_error (dn_intf n) k = Some i /\ relays i /\ df_relay f = RfNone
  | NoRelayAF k af => exists i afs, nth_error (dn_intf n) k = Some i /\ relays i /\ df_relay f = RfSome afs
      /\ is_af af /\ In af (dkeys (di_addr i)) /\ ~ In af afs
  | BadServer k s => exists i, nth_error (dn_intf n) k = Some i /\ In s (di_server i) /\ sv s = false
  | NoInterVRF k => exists i v, nth_error (dn_intf n) k = Some i /\ relays i /\ di_vrf i = Some v /\ v <> ""%string
      /\ df_vrf f = false
  | NoVRF k v => exists i, nth_error (dn_intf n) k = Some i /\ relays i /\ di_vrf i = Some v /\ v <> ""%string
      /\ v <> "global"%string /\ ~ In v (dn_vrfs n)
  end.

Definition wrong_client (f : dfeatures) (ns : bool) (i : dintf) (k : nat) (x : dhcp_error) : Prop :=
  exists af, x = NoClient k af /\ is_af af /\ In af (dkeys (kept_client ns i)) /\ ~ In af (df_client f).

Lemma check_client_errors : forall f ns k i x, In x (snd (check_client f ns k i)) <-> wrong_client f ns i k x.
Proof.
  intros f ns k i x. unfold check_client, wrong_client, kept_client. destruct (di_client i) as [|c cs] eqn:C.
  { simpl. split; [intros []|]. intros [af [_ [_ [H _]]]]. destruct ns; [destruct H|]. destruct (di_server i); destruct H. }
  set (cl := c :: cs) in *. assert (P : match di_server i with [] => ns | _ => true end = true \/
    (match di_server i with [] => ns | _ => true end = false /\ ns = false /\ di_server i = [])).
  { destruct (di_server i); auto. destruct ns; auto. }
  destruct P as [P|[P [P1 P2]]]; rewrite P.
  - cbn [snd]. split; [intros []|]. intros [af [_ [_ [H _]]]]. destruct ns; [destruct H|].
    destruct (di_server i); [discriminate|destruct H].
  - cbn [snd]. rewrite P1, P2. rewrite in_flat_map. split.
    + intros [af [A H]]. exists af. destruct (dmem af cl) eqn:D; [|destruct H]. simpl in H.
      destruct (memS af (df_client f)) eqn:M; [destruct H|]. destruct H as [<-|[]].
      split; auto. split; [apply is_af_mem; now apply memS_true|]. split; [now apply dmem_true|now apply memS_false].
    + intros [af [-> [A [H1 H2]]]]. exists af. split; [apply is_af_mem in A; now apply memS_true in A|].
      apply dmem_true in H1. apply memS_false in H2. rewrite H1, H2. simpl. auto.
Qed.

Lemma check_clients_errors : forall f ns l k x, In x (snd (check_clients f ns k l)) <->
  exists j i, nth_error l j = Some i /\ wrong_client f ns i (k + j) x.
Proof.
  intros f ns l. induction l as [|i r IH]; intros k x.
  - simpl. split; [intros []|]. intros [j [i [H _]]]. destruct j; discriminate.
  - simpl. pose proof (check_client_errors f ns k i x) as C. destruct (check_client f ns k i) as [i' e].
    specialize (IH (S k) x). destruct (check_clients f ns (S k) r) as [r' es]. cbn [snd] in *.
    rewrite in_app_iff, C, IH. split.
    + intros [H|[j [i0 [J H]]]].
      * exists 0, i. rewrite Nat.add_0_r. auto.
      * exists (S j), i0. rewrite Nat.add_succ_r. auto.
    + intros [[|j] [i0 [J H]]].
      * simpl in J. injection J as <-. rewrite Nat.add_0_r in H. auto.
      * right. exists j, i0. rewrite Nat.add_succ_r in H. auto.
Qed.

Definition wrong_relay (f : dfeatures) (sv : string -> bool) (vrfs : list string) (i : dintf) (k : nat) (x : dhcp_error) : Prop :=
  relays i /\
  ((x = NoRelay k /\ df_relay f = RfNone)
   \/ (exists af afs, x = NoRelayAF k af /\ df_relay f = RfSome afs /\ is_af af /\ In af (dkeys (di_addr i)) /\ ~ In af afs)
   \/ (exists s, x = BadServer k s /\ In s (di_server i) /\ sv s = false)
   \/ (exists v, di_vrf i = Some v /\ v <> ""%string /\ ((x = NoInterVRF k /\ df_vrf f = false)
        \/ (x = NoVRF k v /\ v <> "global"%string /\ ~ In v vrfs)))).

Lemma check_relay_errors : forall f sv vrfs k i x,
  In x (fst (check_relay f sv vrfs k i)) \/ In x (snd (check_relay f sv vrfs k i)) <-> wrong_relay f sv vrfs i k x.
Proof.
  intros f sv vrfs k i x. unfold check_relay, wrong_relay, relays. destruct (di_server i) as [|s0 ss] eqn:S.
  { simpl. split; [intros [[]|[]]|]. intros [H _]. congruence. }
  set (srvs := s0 :: ss). cbv zeta. cbn [fst snd]. rewrite !in_app_iff.
  assert (E1 : In x (match df_relay f with RfNone => [NoRelay k] | _ => [] end) <-> x = NoRelay k /\ df_relay f = RfNone).
  { destruct (df_relay f); simpl; [|split; [intros []|intros [_ H]; discriminate]..]. intuition. }
  assert (E2 : In x (flat_map (fun s => if sv s then [] else [BadServer k s]) srvs) <-> exists s, x = BadServer k s /\ In s srvs /\ sv s = false).
  { rewrite in_flat_map. split.
    - intros [s [I H]]. exists s. destruct (sv s); [destruct H|]. destruct H as [<-|[]]. auto.
    - intros [s [-> [I H]]]. exists s. rewrite H. simpl. auto. }
  assert (Ew : In x (match df_relay f with
                     | RfSome afs => flat_map (fun af => if dmem af (di_addr i) && negb (memS af afs) then [NoRelayAF k af] else []) AFS
                     | _ => [] end) <->
    exists af afs, x = NoRelayAF k af /\ df_relay f = RfSome afs /\ is_af af /\ In af (dkeys (di_addr i)) /\ ~ In af afs).
  { destruct (df_relay f) as [| |afs].
    1,2: split; [intros []|intros [af [afs [_ [H _]]]]; discriminate].
    rewrite in_flat_map. split.
    - intros [af [A H]]. exists af, afs. destruct (dmem af (di_addr i)) eqn:D; [|destruct H]. simpl in H.
      destruct (memS af afs) eqn:M; [destruct H|]. destruct H as [<-|[]].
      split; auto. split; auto. split; [apply is_af_mem; now apply memS_true|]. split; [now apply dmem_true|now apply memS_false].
    - intros [af [afs' [-> [E [A [H1 H2]]]]]]. injection E as <-. exists af.
      split; [apply is_af_mem in A; now apply memS_true in A|].
      apply dmem_true in H1. apply memS_false in H2. rewrite H1, H2. simpl. auto. }
  assert (E3 : In x (match di_vrf i with
                | Some EmptyString | None => []
                | Some v =>
                    (if df_vrf f then [] else [NoInterVRF k])
                    ++ (if String.eqb v "global" then [] else if memS v vrfs then [] else [NoVRF k v])
                end) <-> exists v, di_vrf i = Some v /\ v <> ""%string /\ ((x = NoInterVRF k /\ df_vrf f = false)
        \/ (x = NoVRF k v /\ v <> "global"%string /\ ~ In v vrfs))).
  { destruct (di_vrf i) as [[|c v]|].
    1,3: split; [intros []|intros [v [H [H1 _]]]; congruence].
    set (w := String c v). rewrite in_app_iff. split.
    - intros [H|H]; exists w; (split; [auto|]); (split; [discriminate|]).
      + left. destruct (df_vrf f); [destruct H|]. destruct H as [<-|[]]. auto.
      + right. destruct (String.eqb_spec w "global") as [|N]; [destruct H|]. destruct (memS w vrfs) eqn:M; [destruct H|].
        destruct H as [<-|[]]. split; auto. split; auto. now apply memS_false.
    - intros [v' [H [_ K]]]. injection H as <-. destruct K as [[-> K]|[-> [K1 K2]]].
      + left. rewrite K. simpl. auto.
      + right. apply String.eqb_neq in K1. fold w in K1. rewrite K1. apply memS_false in K2. fold w in K2. rewrite K2. simpl. auto. }
  rewrite E1, E2, E3, Ew. assert (R : srvs <> []) by discriminate. tauto.
Qed.

Lemma check_relays_errors : forall f sv vrfs l k x,
  In x (fst (check_relays f sv vrfs k l)) \/ In x (snd (check_relays f sv vrfs k l)) <->
  exists j i, nth_error l j = Some i /\ wrong_relay f sv vrfs i (k + j) x.
Proof.
  intros f sv vrfs l. induction l as [|i r IH]; intros k x.
  - simpl. split; [intros [[]|[]]|]. intros [j [i [H _]]]. destruct j; discriminate.
  - simpl. pose proof (check_relay_errors f sv vrfs k i x) as C. destruct (check_relay f sv vrfs k i) as [e w].
    specialize (IH (S k) x). destruct (check_relays f sv vrfs (S k) r) as [es ws]. cbn [fst snd] in *.
    rewrite !in_app_iff. split.
    + intros H. assert (H' : (In x e \/ In x w) \/ (In x es \/ In x ws)) by tauto. destruct H' as [H'|H'].
      * apply C in H'. exists 0, i. rewrite Nat.add_0_r. auto.
      * apply IH in H'. destruct H' as [j [i0 [J H']]]. exists (S j), i0. rewrite Nat.add_succ_r. auto.
    + intros [[|j] [i0 [J H]]].
      * simpl in J. injection J as <-. rewrite Nat.add_0_r in H. apply C in H. tauto.
      * rewrite Nat.add_succ_r in H. assert (H' : In x es \/ In x ws) by (apply IH; exists j, i0; auto). tauto.
Qed.

Lemma F2_nth : forall (A B : Type) (P : A -> B -> Prop) l l', Forall2 P l l' -> forall j,
  (forall a, nth_error l j = Some a -> exists b, nth_error l' j = Some b /\ P a b)
  /\ (forall b, nth_error l' j = Some b -> exists a, nth_error l j = Some a /\ P a b).
Proof.
  intros A B P l l' F. induction F as [|a b r r' H F IH]; intros [|j]; simpl; split; intros y E; try discriminate.
  - injection E as <-. eauto.
  - injection E as <-. eauto.
  - now apply IH.
  - now apply IH.
Qed.

(* C92: exactly the unsupported functions are reported; inter-VRF relays are marked *)
Theorem dhcp_support_reports : forall f sv n n' ok e,
  check_protocol_support f sv n = (n', ok, e) ->
  (forall x, In x e <-> wrong f sv n x)
  /\ dn_server n' = dn_server n /\ dn_vrfs n' = dn_vrfs n
  /\ (dn_vrf n' = Some true <-> dn_vrf n = Some true
       \/ (dn_vrf n = None /\ df_vrf f = true /\ exists i v, In i (dn_intf n) /\ relays i /\ di_vrf i = Some v /\ v <> ""%string))
  /\ (dn_vrf n' = Some false <-> dn_vrf n = Some false).
Proof.
  intros f sv n n' ok e E. unfold check_protocol_support in E.
  destruct (check_clients_spec f (dn_server n) (dn_intf n) 0) as [C1 _].
  pose proof (check_clients_errors f (dn_server n) (dn_intf n) 0) as C2.
  destruct (check_clients f (dn_server n) 0 (dn_intf n)) as [l1 e1]. simpl in C1, C2.
  pose proof (check_relays_errors f sv (dn_vrfs n) l1 0) as R.
  destruct (check_relays f sv (dn_vrfs n) 0 l1) as [e2 w]. cbn [fst snd] in R. cbv zeta in E.
  set (e0 := if dn_server n && negb (df_server f) then [NotServer] else []) in E.
  injection E as <- _ <-. cbn [dn_server dn_vrfs dn_vrf].
  assert (E0 : forall x, In x e0 <-> x = NotServer /\ dn_server n = true /\ df_server f = false).
  { intros x. unfold e0. destruct (dn_server n), (df_server f); simpl; intuition congruence. }
  assert (R' : forall x, (In x e2 \/ In x w) <-> exists j i, nth_error (dn_intf n) j = Some i /\ wrong_relay f sv (dn_vrfs n) i j x).
  { intros x. rewrite R. simpl. split.
    - intros [j [i' [J H]]]. destruct (proj2 (F2_nth _ _ _ _ _ C1 j) i' J) as [i [I [Hc [Ha Hs]]]]. exists j, i. split; auto.
      unfold wrong_relay, relays in *. destruct Hs as [S1 [S2 [S3 [S4 [S5 [S6 S7]]]]]]. rewrite Ha in H.
      rewrite S4, S5 in H || (rewrite <- ?S4, <- ?S5 in H). exact H.
    - intros [j [i [J H]]]. destruct (proj1 (F2_nth _ _ _ _ _ C1 j) i J) as [i' [I [Hc [Ha Hs]]]]. exists j, i'. split; auto.
      unfold wrong_relay, relays in *. destruct Hs as [S1 [S2 [S3 [S4 [S5 [S6 S7]]]]]]. rewrite Ha.
      rewrite S4, S5 || (rewrite <- ?S4, <- ?S5). exact H. }
  split; [|split; [auto|split; [auto|]]].
  - intros x. rewrite !in_app_iff, E0, C2. simpl.
    assert (T : forall P Q : Prop, (P \/ Q \/ In x e2 \/ In x w) <-> (P \/ Q \/ exists j i, nth_error (dn_intf n) j = Some i /\ wrong_relay f sv (dn_vrfs n) i j x)).
    { intros P Q. rewrite <- R'. tauto. }
    rewrite T. clear T. split.
    + intros [[-> H]|[[j [i [J [af [-> H]]]]]|[j [i [J [Rl H]]]]]].
      * exact H.
      * simpl. exists i. auto.
      * destruct H as [[-> H]|[[af [afs [-> H]]]|[[s [-> H]]|[v [V [Ne [[-> H]|[-> H]]]]]]]]; simpl.
        -- exists i. auto.
        -- exists i, afs. destruct H as [H1 H2]. auto.
        -- exists i. auto.
        -- exists i, v. auto.
        -- exists i. auto.
    + destruct x; simpl; intros H.
      * left. auto.
      * right. left. destruct H as [i [J H]]. exists k, i. split; auto. exists af. auto.
      * right. right. destruct H as [i [J [H1 H2]]]. exists k, i. split; auto. split; auto.
      * right. right. destruct H as [i [afs [J [H1 H2]]]]. exists k, i. split; auto. split; auto. right. left. exists af, afs. auto.
      * right. right. destruct H as [i [J [H1 H2]]]. exists k, i. split; auto. split.
        -- unfold relays. intros Z. rewrite Z in H1. destruct H1.
        -- right. right. left. exists srv. auto.
      * right. right. destruct H as [i [v [J [H1 [H2 [H3 H4]]]]]]. exists k, i. split; auto. split; auto.
        right. right. right. exists v. auto.
      * right. right. destruct H as [i [J [H1 [H2 [H3 H4]]]]]. exists k, i. split; auto. split; auto.
        right. right. right. exists vrf. auto.
  - assert (X : existsb (fun i => is_relay i && inter_vrf i) l1 = true <->
      exists i v, In i (dn_intf n) /\ relays i /\ di_vrf i = Some v /\ v <> ""%string).
    { rewrite existsb_exists.
      assert (B : forall i, is_relay i && inter_vrf i = true <-> relays i /\ exists v, di_vrf i = Some v /\ v <> ""%string).
      { intros i. unfold is_relay, inter_vrf, relays. rewrite andb_true_iff.
        destruct (di_server i); [split; [intros [H _]; discriminate|intros [H _]; congruence]|].
        destruct (di_vrf i) as [[|c v]|].
        - split; [intros [_ H]; discriminate|]. intros [_ [v [H1 H2]]]. congruence.
        - split; [intros _; split; [discriminate|]; exists (String c v); split; [auto|discriminate]|auto].
        - split; [intros [_ H]; discriminate|]. intros [_ [v [H1 H2]]]. congruence. }
      split.
      - intros [i' [I H]]. destruct (F2_In_r _ _ _ _ _ _ C1 I) as [i [J [Hc [Ha Hs]]]]. apply B in H. destruct H as [H1 [v [H2 H3]]].
        exists i, v. destruct Hs as [S1 [S2 [S3 [S4 [S5 [S6 S7]]]]]]. unfold relays in *. split; auto. split; [congruence|]. split; [congruence|auto].
      - intros [i [v [I [H1 [H2 H3]]]]]. destruct (F2_In_l _ _ _ _ _ _ C1 I) as [i' [J [Hc [Ha Hs]]]]. exists i'. split; auto.
        apply B. destruct Hs as [S1 [S2 [S3 [S4 [S5 [S6 S7]]]]]]. unfold relays in *. split; [congruence|]. exists v. split; [congruence|auto]. }
    destruct (existsb (fun i => is_relay i && inter_vrf i) l1) eqn:Q; simpl.
    + destruct (proj1 X eq_refl) as [i [v Hv]]. destruct (df_vrf f); destruct (dn_vrf n) as [[|]|]; simpl;
        (split; [|split; congruence]); split; auto; try congruence;
        try (intros [H|[H1 [H2 _]]]; congruence).
      intros _. right. split; auto. split; auto. exists i, v. exact Hv.
    + assert (NX : ~ exists i v, In i (dn_intf n) /\ relays i /\ di_vrf i = Some v /\ v <> ""%string) by (intros H; apply X in H; discriminate).
      split; [|reflexivity]. split; auto. intros [H|[_ [_ H]]]; auto. contradiction.
Qed.

(* C92: on supported nodes DHCP clients have no static addresses, and no other address is lost *)
Theorem dhcp_client_addresses : forall f sv n n' e,
  post_node f sv n = (n', e) ->
  node_supported f sv n ->
  Forall2 (fun i i' =>
    di_client i' = kept_client (dn_server n) i /\ same_rest i i'
    /\ forall af, is_af af ->
        (dget af (di_client i') = Some true -> dget af (di_addr i') = None)
        /\ (dget af (di_client i') <> Some true -> dget af (di_addr i') = dget af (di_addr i)))
    (dn_intf n) (dn_intf n').
Proof.
  intros f sv n n' e E S. unfold post_node in E.
  destruct (check_protocol_support f sv n) as [[n1 ok] e1] eqn:C.
  destruct (dhcp_support_exact _ _ _ _ _ _ C) as [Ok [_ [F _]]].
  assert (T : ok = true) by (apply Ok; auto). rewrite T in E. injection E as <- _. cbn [dn_intf].
  assert (P : forall i af, is_af af -> dget af (di_addr (post_intf i)) =
    if is_some_true (dget af (di_client i)) then None else dget af (di_addr i)).
  { intros i af A. unfold post_intf, AFS. simpl.
    destruct A as [-> | ->].
    - destruct (is_some_true (dget "ipv6" (di_client i))); rewrite ?dpop_get; simpl;
        destruct (is_some_true (dget "ipv4" (di_client i))); rewrite ?dpop_get; reflexivity.
    - destruct (is_some_true (dget "ipv6" (di_client i))); rewrite ?dpop_get; simpl; auto.
      destruct (is_some_true (dget "ipv4" (di_client i))); rewrite ?dpop_get; reflexivity. }
  clear -F P. induction F as [|i j l l' [H1 [H2 H3]] F IH]; simpl; constructor; auto.
  split; [exact H1|]. split; [unfold same_rest in *; simpl; tauto|].
  intros af A. rewrite (P j af A), H2. cbn [di_client post_intf set_addr].
  split; intros H.
  - change (di_client (post_intf j)) with (di_client j) in H. now rewrite H.
  - change (di_client (post_intf j)) with (di_client j) in H.
    destruct (is_some_true (dget af (di_client j))) eqn:Q; auto. apply st_true in Q. contradiction.
Qed.

(* C92, refuted: switching a DHCP client off on a device without that client is reported as an error *)
Theorem dhcp_disabled_client_refuted : exists f sv n n' e,
  check_protocol_support f sv n = (n', false, e)
  /\ (forall i af, In i (dn_intf n) -> dget af (di_client i) <> Some true)
  /\ (forall i, In i (dn_intf n) -> ~ relays i) /\ dn_server n = false.
Proof.
  exists (mk_df true ["ipv4"%string] false RfAll true), (fun _ => false),
    (mk_dn false [] None false [di0 "r1" [] [("ipv6"%string, false)] None]).
  eexists. eexists. split; [reflexivity|]. simpl. split; [|split; auto].
  - intros i af [<-|[]]. simpl. destruct (String.eqb af "ipv6"); discriminate.
  - intros i [<-|[]] H. apply H. reflexivity.
Qed.

Definition f_ios := mk_df true ["ipv4"; "ipv6"]%string true RfAll true.
Definition ex_relay := mk_di "r1" 2 [("ipv4", DvStr "10.0.1.1/24")]%string [("ipv4", true)]%string None ["srv"]%string
  (Some "red"%string) None [].

Example ex_dhcp_support :
  post_node f_ios (fun s => String.eqb s "srv")
    (mk_dn false ["red"%string] None false [di0 "r1" [("ipv4", DvStr "10.0.0.1/24"); ("ipv6", DvStr "2001:db8::1/64")]%string [("ipv4", true)]%string None; ex_relay])
  = (mk_dn false ["red"%string] (Some true) true
       [di0 "r1" [("ipv6", DvStr "2001:db8::1/64")]%string [("ipv4", true)]%string None; set_client [] ex_relay], []).
Proof. reflexivity. Qed.

(* ================= relays ================= *)

Definition client_ngb (ngb : list (dict bool)) (af : string) : Prop := exists d, In d ngb /\ dget af d = Some true.

Definition target (ep : string -> option (dict dval)) (addr : string -> string) (af s : string) : list string :=
  match ep s with
  | Some d => match dget af d with Some (DvStr a) => [addr a] | _ => [] end
  | None => []
  end.

Lemma relay_targets_spec : forall ep addr af srvs,
  fst (relay_targets ep addr af srvs) = flat_map (target ep addr af) srvs
  /\ forall x, In x (snd (relay_targets ep addr af srvs)) <->
       exists s, In s srvs /\ ((x = NoEndpoint s /\ ep s = None)
                               \/ (x = NoServerAF s af /\ exists d, ep s = Some d /\ dget af d = None)).
Proof.
  intros ep addr af srvs. induction srvs as [|s r [IH1 IH2]]; simpl.
  - split; auto. intros x. split; [tauto|]. intros [y [[] _]].
  - destruct (relay_targets ep addr af r) as [t e]. simpl in *. unfold target at 1.
    assert (St : forall x, (exists y, In y r /\ ((x = NoEndpoint y /\ ep y = None)
                               \/ (x = NoServerAF y af /\ exists d, ep y = Some d /\ dget af d = None))) ->
       exists y, (s = y \/ In y r) /\ ((x = NoEndpoint y /\ ep y = None)
                               \/ (x = NoServerAF y af /\ exists d, ep y = Some d /\ dget af d = None))).
    { intros x [y [Y H]]. exists y. auto. }
    destruct (ep s) as [d|] eqn:E; [destruct (dget af d) as [[a| |]|] eqn:D|]; simpl; (split; [now rewrite IH1|]); intros x.
    + rewrite IH2. split; auto. intros [y [[<-|Y] H]]; [|eauto].
      destruct H as [[_ H]|[_ [d' [H1 H2]]]]; [congruence|]. rewrite E in H1. injection H1 as <-. congruence.
    + rewrite IH2. split; auto. intros [y [[<-|Y] H]]; [|eauto].
      destruct H as [[_ H]|[_ [d' [H1 H2]]]]; [congruence|]. rewrite E in H1. injection H1 as <-. congruence.
    + rewrite IH2. split; auto. intros [y [[<-|Y] H]]; [|eauto].
      destruct H as [[_ H]|[_ [d' [H1 H2]]]]; [congruence|]. rewrite E in H1. injection H1 as <-. congruence.
    + rewrite IH2. split.
      * intros [<-|H]; [|auto]. exists s. split; auto. right. split; auto. exists d. auto.
      * intros [y [[<-|Y] H]]; [|right; eauto]. left.
        destruct H as [[_ H]|[-> _]]; [congruence|auto].
    + rewrite IH2. split.
      * intros [<-|H]; [|auto]. exists s. split; auto.
      * intros [y [[<-|Y] H]]; [|right; eauto]. left.
        destruct H as [[-> _]|[_ [d [H _]]]]; [auto|congruence].
Qed.

Lemma ngb_b : forall ngb af, existsb (fun d => is_some_true (dget af d)) ngb = true <-> client_ngb ngb af.
Proof.
  intros ngb af. rewrite existsb_exists. unfold client_ngb.
  split; intros [d [D H]]; exists d; split; auto; now apply st_true.
Qed.

(* C93: relays forward requests to the addresses of all their servers, in the address families with DHCP clients on
   the link; servers without an address are reported *)
Theorem dhcp_relay_targets : forall ep addr ngb i i' e,
  set_dhcp_relay ep addr ngb i = (i', e) ->
  di_addr i' = di_addr i /\ di_client i' = di_client i /\ di_server i' = di_server i
  /\ (forall af, is_af af -> relays i -> client_ngb ngb af ->
        dget af (di_relay i') = Some (flat_map (target ep addr af) (di_server i)))
  /\ (forall af, ~ (is_af af /\ relays i /\ client_ngb ngb af) -> dget af (di_relay i') = dget af (di_relay i))
  /\ (forall x, In x e <-> exists af s, is_af af /\ client_ngb ngb af /\ In s (di_server i)
        /\ ((x = NoEndpoint s /\ ep s = None) \/ (x = NoServerAF s af /\ exists d, ep s = Some d /\ dget af d = None))).
Proof.
  intros ep addr ngb i i' e E. unfold set_dhcp_relay in E. destruct (di_server i) as [|s0 ss] eqn:S.
  - injection E as <- <-. split; auto. split; auto. split; auto. split; [intros af _ H; unfold relays in H; congruence|].
    split; auto. intros x. split; [intros []|]. intros [af [s [_ [_ [[] _]]]]].
  - set (srvs := s0 :: ss) in *. assert (Rl : relays i) by (unfold relays; rewrite S; discriminate).
    assert (G : forall af, is_af af -> exists b, b = existsb (fun d => is_some_true (dget af d)) ngb /\ (b = true <-> client_ngb ngb af)).
    { intros af _. eexists. split; [reflexivity|apply ngb_b]. }
    destruct (G "ipv4"%string (or_introl eq_refl)) as [b4 [B4 N4]]. destruct (G "ipv6"%string (or_intror eq_refl)) as [b6 [B6 N6]].
    clear G. unfold AFS in E. cbn [fold_left] in E.
    destruct (relay_targets_spec ep addr "ipv4" srvs) as [T4 X4]. destruct (relay_targets_spec ep addr "ipv6" srvs) as [T6 X6].
    destruct (relay_targets ep addr "ipv4" srvs) as [t4 e4] eqn:Q4. destruct (relay_targets ep addr "ipv6" srvs) as [t6 e6] eqn:Q6.
    cbn [fst snd] in T4, X4, T6, X6. subst t4 t6.
    rewrite <- B4 in E. clear B4.
    assert (E2 : (i', e) = (let '(j, es) := if b4 then (set_relay (dset "ipv4"%string (flat_map (target ep addr "ipv4") srvs) (di_relay i)) i, e4) else (i, []) in
        if b6 then (set_relay (dset "ipv6"%string (flat_map (target ep addr "ipv6") srvs) (di_relay j)) j, es ++ e6) else (j, es))).
    { rewrite <- E. destruct b4; rewrite <- B6; rewrite ?Q4, Q6; reflexivity. }
    clear E B6. rename E2 into E.
    set (e4' := if b4 then e4 else []). set (e6' := if b6 then e6 else []).
    assert (Ee : e = e4' ++ e6').
    { unfold e4', e6'. destruct b4, b6; injection E as _ ->; simpl; rewrite ?app_nil_r; auto. }
    assert (Er : forall k, dget k (di_relay i') =
      if String.eqb k "ipv6" && b6 then Some (flat_map (target ep addr "ipv6") srvs)
      else if String.eqb k "ipv4" && b4 then Some (flat_map (target ep addr "ipv4") srvs) else dget k (di_relay i)).
    { intros k. destruct b4, b6; injection E as -> _; cbn [di_relay set_relay]; rewrite ?dset_get, ?andb_true_r, ?andb_false_r; auto. }
    assert (Rs : di_addr i' = di_addr i /\ di_client i' = di_client i /\ di_server i' = di_server i).
    { destruct b4, b6; injection E as -> _; simpl; auto. }
    clear E. destruct Rs as [R1 [R2 R3]]. split; auto. split; auto. split; [congruence|]. split; [|split].
    + intros af A _ N. rewrite Er. destruct A as [-> | ->].
      * apply N4 in N. rewrite N. reflexivity.
      * apply N6 in N. rewrite N. reflexivity.
    + intros af N. rewrite Er.
      destruct (String.eqb_spec af "ipv6") as [->|H6].
      { destruct b6; simpl; auto. exfalso. apply N. unfold is_af. intuition. }
      simpl. destruct (String.eqb_spec af "ipv4") as [->|H4]; simpl; auto.
      destruct b4; auto. exfalso. apply N. unfold is_af. intuition.
    + intros x. rewrite Ee, in_app_iff. unfold e4', e6'. split.
      * intros [H|H].
        -- destruct b4; [|destruct H]. apply X4 in H. destruct H as [s [I H]]. exists "ipv4"%string, s. unfold is_af. intuition.
        -- destruct b6; [|destruct H]. apply X6 in H. destruct H as [s [I H]]. exists "ipv6"%string, s. unfold is_af. intuition.
      * intros [af [s [[-> | ->] [N [I H]]]]].
        -- left. apply N4 in N. rewrite N. apply X4. eauto.
        -- right. apply N6 in N. rewrite N. apply X6. eauto.
Qed.

Example ex_dhcp_relay :
  set_dhcp_relay (fun s => if String.eqb s "srv" then Some [("ipv4", DvStr "10.0.0.5/32")]%string else None)
    (fun a => substring 0 8 a) [[("ipv4", true); ("ipv6", true)]]%string ex_relay
  = (set_relay [("ipv4", ["10.0.0.5"]); ("ipv6", [])]%string ex_relay, [NoServerAF "srv" "ipv6"]).
Proof. reflexivity. Qed.

(* ================= pools ================= *)

Section Pools.
Variable make_id addr : string -> string.

Notation upd := Dhcp_Model.upd.

Definition excl (p : dpool) (af : string) : list string := match dget af (dp_excl p) with Some l => l | None => [] end.
Definition has (ps : dict dpool) (pid af a : string) : Prop := In a (excl (dp_get pid ps) af).

Lemma upd_get : forall pid g ps x, dget x (upd pid g ps) = if String.eqb x pid then Some (g (dp_get pid ps)) else dget x ps.
Proof. intros. unfold upd. apply dset_get. Qed.

Lemma upd_dp_get : forall pid g ps x, dp_get x (upd pid g ps) = if String.eqb x pid then g (dp_get pid ps) else dp_get x ps.
Proof. intros. unfold dp_get at 1. rewrite upd_get. destruct (String.eqb x pid); reflexivity. Qed.

Lemma upd_dmem : forall pid g ps x, dmem x (upd pid g ps) = String.eqb x pid || dmem x ps.
Proof. intros. unfold dmem. rewrite upd_get. destruct (String.eqb x pid); reflexivity. Qed.

Lemma has_keep : forall pid g ps, (forall p, dp_excl (g p) = dp_excl p) ->
  forall x af a, has (upd pid g ps) x af a <-> has ps x af a.
Proof.
  intros pid g ps H x af a. unfold has. rewrite upd_dp_get. destruct (String.eqb_spec x pid) as [->|]; [|reflexivity].
  unfold excl. now rewrite H.
Qed.

Lemma In_append : forall x y l, In x (append_to_list y l) <-> In x l \/ x = y.
Proof.
  intros x y l. unfold append_to_list. destruct (memS y l) eqn:M.
  - apply memS_true in M. split; auto. intros [H| ->]; auto.
  - rewrite in_app_iff. simpl. intuition.
Qed.

Lemma has_add : forall pid af0 v ps x af a,
  has (upd pid (p_excl af0 v) ps) x af a <-> has ps x af a \/ (x = pid /\ af = af0 /\ a = v).
Proof.
  intros pid af0 v ps x af a. unfold has. rewrite upd_dp_get. destruct (String.eqb_spec x pid) as [->|N].
  - unfold excl at 1, p_excl. cbn [dp_excl]. rewrite dset_get. destruct (String.eqb_spec af af0) as [->|N0].
    + rewrite In_append. unfold excl. intuition.
    + unfold excl. intuition.
  - intuition.
Qed.

(* phase 1: the VLANs *)
Definition vlan_usable (v : dvlan) : Prop :=
  dv_route v = false /\ exists af, is_af af /\ ((exists s, dget af (dv_prefix v) = Some (DvStr s)) \/ dget af (dv_gw v) <> None).

Lemma vlan_pool_spec : forall ps v,
  (forall x af a, has (vlan_pool make_id addr ps v) x af a <-> has ps x af a)
  /\ (forall x, dmem x (vlan_pool make_id addr ps v) = true <->
        dmem x ps = true \/ (x = vlan_pid make_id (dv_name v) /\ vlan_usable v))
  /\ (forall x, dp_active (dp_get x (vlan_pool make_id addr ps v)) = dp_active (dp_get x ps)).
Proof.
  intros ps v. unfold vlan_pool, vlan_usable. destruct (dv_route v).
  { split; [reflexivity|]. split; [|reflexivity]. intros x. split; auto. intros [H|[_ [H _]]]; auto. discriminate. }
  set (pid := vlan_pid make_id (dv_name v)).
  set (st := fun q af => _).
  assert (Hs : forall q af,
    (forall x a0 a, has (st q af) x a0 a <-> has q x a0 a)
    /\ (forall x, dmem x (st q af) = true <-> dmem x q = true \/ (x = pid /\
          ((exists s, dget af (dv_prefix v) = Some (DvStr s)) \/ dget af (dv_gw v) <> None)))
    /\ (forall x, dp_active (dp_get x (st q af)) = dp_active (dp_get x q))).
  { intros q af. unfold st. cbv zeta.
    assert (K : forall q' g, (forall p, dp_excl (g p) = dp_excl p) -> (forall p, dp_active (g p) = dp_active p) ->
      (forall x a0 a, has (upd pid g q') x a0 a <-> has q' x a0 a)
      /\ (forall x, dmem x (upd pid g q') = true <-> dmem x q' = true \/ x = pid)
      /\ (forall x, dp_active (dp_get x (upd pid g q')) = dp_active (dp_get x q'))).
    { intros q' g H1 H2. split; [intros; now apply has_keep|]. split.
      - intros x. rewrite upd_dmem, orb_true_iff, String.eqb_eq. tauto.
      - intros x. rewrite upd_dp_get. destruct (String.eqb_spec x pid) as [->|]; auto. }
    set (q1 := match dget af (dv_prefix v) with Some (DvStr s) => upd pid (p_prefix af s) q | _ => q end).
    assert (Q1 : (forall x a0 a, has q1 x a0 a <-> has q x a0 a)
      /\ (forall x, dmem x q1 = true <-> dmem x q = true \/ (x = pid /\ exists s, dget af (dv_prefix v) = Some (DvStr s)))
      /\ (forall x, dp_active (dp_get x q1) = dp_active (dp_get x q))).
    { unfold q1. destruct (dget af (dv_prefix v)) as [[s| |]|].
      2,3,4: split; [reflexivity|]; split; [|reflexivity]; intros x; split; auto; intros [H|[_ [s H]]]; auto; discriminate.
      destruct (K q (p_prefix af s)) as [K1 [K2 K3]]; try reflexivity. split; auto. split; auto.
      intros x. rewrite K2. split; (intros [H|H]; [auto|right]); [split; eauto|tauto]. }
    destruct Q1 as [Q1 [Q2 Q3]].
    destruct (dget af (dv_gw v)) as [g|].
    - destruct (K q1 (p_gw af (addr g))) as [K1 [K2 K3]]; try reflexivity.
      split; [intros; now rewrite K1|]. split; [|intros; now rewrite K3].
      intros x. rewrite K2, Q2. split.
      + intros [[H|[H1 H2]]|H]; auto. right. split; auto. right. discriminate.
      + intros [H|[H _]]; auto.
    - split; auto. split; auto. intros x. rewrite Q2. split; (intros [H|[H1 H2]]; [auto|right; split; auto]).
      destruct H2 as [H2|H2]; auto. congruence. }
  set (ps1 := fold_left st AFS ps).
  assert (P : (forall x a0 a, has ps1 x a0 a <-> has ps x a0 a)
    /\ (forall x, dmem x ps1 = true <-> dmem x ps = true \/ (x = pid /\ exists af, is_af af /\
          ((exists s, dget af (dv_prefix v) = Some (DvStr s)) \/ dget af (dv_gw v) <> None)))
    /\ (forall x, dp_active (dp_get x ps1) = dp_active (dp_get x ps))).
  { unfold ps1, AFS. cbn [fold_left]. destruct (Hs ps "ipv4"%string) as [A1 [A2 A3]].
    destruct (Hs (st ps "ipv4"%string) "ipv6"%string) as [B1 [B2 B3]].
    split; [intros; now rewrite B1|]. split; [|intros; now rewrite B3].
    intros x. rewrite B2, A2. split.
    - intros [[H|[H1 H2]]|[H1 H2]]; auto; right; split; auto; [exists "ipv4"%string|exists "ipv6"%string]; unfold is_af; auto.
    - intros [H|[H1 [af [[-> | ->] H2]]]]; auto. }
  destruct P as [P1 [P2 P3]].
  destruct (dv_vrf v) as [r|].
  2:{ split; auto. split; auto. intros x. rewrite P2. intuition. }
  destruct (dmem pid ps1) eqn:D.
  - split; [intros; rewrite has_keep by reflexivity; auto|]. split.
    + intros x. rewrite upd_dmem, orb_true_iff, String.eqb_eq. split.
      * intros [-> |H]; [apply P2 in D; destruct D as [H|[_ H]]|apply P2 in H; destruct H as [H|[H1 H2]]]; auto.
      * intros H. right. apply P2. destruct H as [H|[H1 [_ H2]]]; auto.
    + intros x. rewrite upd_dp_get. destruct (String.eqb_spec x pid) as [->|]; auto. cbn [dp_active p_vrf]. apply P3.
  - split; auto. split; auto. intros x. rewrite P2. intuition.
Qed.

Lemma vlan_pools_spec : forall vlans ps,
  (forall x af a, has (fold_left (vlan_pool make_id addr) vlans ps) x af a <-> has ps x af a)
  /\ (forall x, dmem x (fold_left (vlan_pool make_id addr) vlans ps) = true <->
        dmem x ps = true \/ exists v, In v vlans /\ x = vlan_pid make_id (dv_name v) /\ vlan_usable v)
  /\ (forall x, dp_active (dp_get x (fold_left (vlan_pool make_id addr) vlans ps)) = dp_active (dp_get x ps)).
Proof.
  intros vlans. induction vlans as [|v r IH]; intros ps.
  - simpl. split; [reflexivity|]. split; [|reflexivity]. intros x. split; auto. intros [H|[v [[] _]]]; auto.
  - cbn [fold_left]. destruct (vlan_pool_spec ps v) as [A1 [A2 A3]]. destruct (IH (vlan_pool make_id addr ps v)) as [B1 [B2 B3]].
    split; [intros; now rewrite B1|]. split; [|intros; now rewrite B3].
    intros x. rewrite B2, A2. split.
    + intros [[H|H]|[w [W H]]]; auto; right; [exists v|exists w]; simpl; auto.
    + intros [H|[w [[<-|W] H]]]; auto. right. eauto.
Qed.

(* phase 2: SVIs *)
Definition svi_of (i : dintf) (pid : string) : Prop :=
  exists v, v <> ""%string /\ di_vlan i = Some v /\ vlan_pid make_id v = pid.

Lemma fold_addr : forall pid (i : dintf) (cond : string -> bool) afs q x af a,
  has (fold_left (fun q af0 => match dget af0 (di_addr i) with Some (DvStr b) => upd pid (p_excl af0 (addr b)) q | _ => q end) afs q) x af a
  <-> has q x af a \/ (x = pid /\ In af afs /\ exists b, dget af (di_addr i) = Some (DvStr b) /\ a = addr b).
Proof.
  intros pid i cond afs. induction afs as [|f r IH]; intros q x af a; simpl.
  - split; auto. intros [H|[_ [[] _]]]; auto.
  - rewrite IH. destruct (dget f (di_addr i)) as [[b| |]|] eqn:D.
    + rewrite has_add. split.
      * intros [[H|[-> [-> ->]]]|[H1 [H2 H3]]]; auto. right. split; auto. split; auto. exists b. auto.
      * intros [H|[-> [[<-|H2] [c [H3 H4]]]]]; auto.
        -- left. right. rewrite D in H3. injection H3 as <-. auto.
        -- right. split; auto. split; auto. eauto.
    + split; [intros [H|[H1 [H2 H3]]]; auto; right; auto|]. intros [H|[-> [[<-|H2] [c [H3 H4]]]]]; auto.
      * congruence.
      * right. split; auto. split; auto. eauto.
    + split; [intros [H|[H1 [H2 H3]]]; auto; right; auto|]. intros [H|[-> [[<-|H2] [c [H3 H4]]]]]; auto.
      * congruence.
      * right. split; auto. split; auto. eauto.
    + split; [intros [H|[H1 [H2 H3]]]; auto; right; auto|]. intros [H|[-> [[<-|H2] [c [H3 H4]]]]]; auto.
      * congruence.
      * right. split; auto. split; auto. eauto.
Qed.

Lemma fold_addr_dmem : forall pid (i : dintf) afs q, dmem pid q = true -> forall x,
  dmem x (fold_left (fun q af0 => match dget af0 (di_addr i) with Some (DvStr b) => upd pid (p_excl af0 (addr b)) q | _ => q end) afs q)
  = dmem x q.
Proof.
  intros pid i afs. induction afs as [|f r IH]; intros q D x; simpl; auto.
  destruct (dget f (di_addr i)) as [[b| |]|]; auto.
  rewrite IH; rewrite upd_dmem.
  - destruct (String.eqb_spec x pid) as [->|]; auto.
  - now rewrite String.eqb_refl.
Qed.

Lemma fold_addr_active : forall pid (i : dintf) afs q x,
  dp_active (dp_get x (fold_left (fun q af0 => match dget af0 (di_addr i) with Some (DvStr b) => upd pid (p_excl af0 (addr b)) q | _ => q end) afs q))
  = dp_active (dp_get x q).
Proof.
  intros pid i afs. induction afs as [|f r IH]; intros q x; simpl; auto.
  rewrite IH. destruct (dget f (di_addr i)) as [[b| |]|]; auto.
  rewrite upd_dp_get. destruct (String.eqb_spec x pid) as [->|]; auto.
Qed.

Definition str_addr (i : dintf) (af a : string) : Prop := exists b, dget af (di_addr i) = Some (DvStr b) /\ a = addr b.

Lemma svi_pool_spec : forall ps i,
  (forall x af a, has (svi_pool make_id addr ps i) x af a <->
     has ps x af a \/ (dmem x ps = true /\ svi_of i x /\ is_af af /\ str_addr i af a))
  /\ (forall x, dmem x (svi_pool make_id addr ps i) = dmem x ps)
  /\ (forall x, dp_active (dp_get x (svi_pool make_id addr ps i)) = dp_active (dp_get x ps)).
Proof.
  intros ps i. unfold svi_pool, svi_of.
  destruct (di_vlan i) as [[|c v]|] eqn:V.
  1,3: split; [|auto]; intros x af a; split; auto; intros [H|[_ [[w [W [E _]]] _]]]; auto; congruence.
  set (w := String c v). destruct (dmem (vlan_pid make_id w) ps) eqn:D.
  - split; [|split; [intros x; now apply fold_addr_dmem|intros x; apply fold_addr_active]].
    intros x af a. rewrite (fold_addr _ i (fun _ => true)). split.
    + intros [H|[-> [A H]]]; auto. right. split; auto. split; [exists w; split; [discriminate|auto]|].
      split; [apply is_af_mem; now apply memS_true|exact H].
    + intros [H|[H1 [[w' [_ [E W]]] [A H]]]]; auto. right. injection E as <-.
      split; [auto|]. split; [apply is_af_mem in A; now apply memS_true in A|exact H].
  - split; [|auto]. intros x af a. split; auto. intros [H|[H1 [[w' [_ [E W]]] _]]]; auto. injection E as <-. subst x.
    fold w in H1. congruence.
Qed.

Lemma svi_pools_spec : forall l ps,
  (forall x af a, has (fold_left (svi_pool make_id addr) l ps) x af a <->
     has ps x af a \/ (dmem x ps = true /\ exists i, In i l /\ svi_of i x /\ is_af af /\ str_addr i af a))
  /\ (forall x, dmem x (fold_left (svi_pool make_id addr) l ps) = dmem x ps)
  /\ (forall x, dp_active (dp_get x (fold_left (svi_pool make_id addr) l ps)) = dp_active (dp_get x ps)).
Proof.
  intros l. induction l as [|i r IH]; intros ps.
  - simpl. split; [|auto]. intros x af a. split; auto. intros [H|[_ [i [[] _]]]]; auto.
  - cbn [fold_left]. destruct (svi_pool_spec ps i) as [A1 [A2 A3]]. destruct (IH (svi_pool make_id addr ps i)) as [B1 [B2 B3]].
    split; [|split; intros; [now rewrite B2|now rewrite B3]].
    intros x af a. rewrite B1, A1, A2. split.
    + intros [[H|[H1 H2]]|[H1 [j [J H2]]]]; auto; right; split; auto; [exists i|exists j]; simpl; auto.
    + intros [H|[H1 [j [[<-|J] H2]]]]; auto. right. eauto.
Qed.

(* phase 3: links *)
Definition static_addr (nodes : dict (list dintf)) (i : dintf) (af a : string) : Prop :=
  str_addr i af a /\ node_client nodes i af = Some false.

Definition link_excludes (nodes : dict (list dintf)) (l : dlink) (af a : string) : Prop :=
  In af (dl_subnet l) /\ (exists s, dget af (dl_prefix l) = Some (DvStr s)) /\ exists i, In i (dl_intf l) /\ static_addr nodes i af a.

Lemma link_intfs_spec : forall nodes pid f l ps,
  (forall x af a, has (fold_left (link_intf_pool addr nodes pid f) l ps) x af a <->
     has ps x af a \/ (x = pid /\ af = f /\ exists i, In i l /\ static_addr nodes i f a))
  /\ (forall x, dp_active (dp_get x (fold_left (link_intf_pool addr nodes pid f) l ps)) = dp_active (dp_get x ps))
  /\ (forall x, dp_prefix (dp_get x (fold_left (link_intf_pool addr nodes pid f) l ps)) = dp_prefix (dp_get x ps)).
Proof.
  intros nodes pid f l. induction l as [|i r IH]; intros ps.
  - simpl. split; [|auto]. intros x af a. split; auto. intros [H|[_ [_ [i [[] _]]]]]; auto.
  - cbn [fold_left]. destruct (IH (link_intf_pool addr nodes pid f ps i)) as [B1 [B2 B3]].
    assert (A : (forall x af a, has (link_intf_pool addr nodes pid f ps i) x af a <->
        has ps x af a \/ (x = pid /\ af = f /\ static_addr nodes i f a))
      /\ (forall x, dp_active (dp_get x (link_intf_pool addr nodes pid f ps i)) = dp_active (dp_get x ps))
      /\ (forall x, dp_prefix (dp_get x (link_intf_pool addr nodes pid f ps i)) = dp_prefix (dp_get x ps))).
    { unfold link_intf_pool, static_addr, str_addr. destruct (dget f (di_addr i)) as [[b| |]|] eqn:D.
      2,3,4: split; [|auto]; intros x af a; split; auto; intros [H|[_ [_ [[b [H _]] _]]]]; auto; congruence.
      destruct (node_client nodes i f) as [[|]|] eqn:N.
      1,3: split; [|auto]; intros x af a; split; auto; intros [H|[_ [_ [_ H]]]]; auto; congruence.
      split; [|split].
      - intros x af a. rewrite has_add. split.
        + intros [H|[H1 [H2 H3]]]; auto. right. split; auto. split; auto. split; auto. exists b. auto.
        + intros [H|[H1 [H2 [[b' [H3 H4]] _]]]]; auto. right. rewrite ?D in H3. injection H3 as <-. auto.
      - intros x. rewrite upd_dp_get. destruct (String.eqb_spec x pid) as [->|]; auto.
      - intros x. rewrite upd_dp_get. destruct (String.eqb_spec x pid) as [->|]; auto. }
    destruct A as [A1 [A2 A3]]. split; [|split; intros; [now rewrite B2|now rewrite B3]].
    intros x af a. rewrite B1, A1. split.
    + intros [[H|[H1 [H2 H3]]]|[H1 [H2 [j [J H3]]]]]; auto; right; split; auto; split; auto; [exists i|exists j]; simpl; auto.
    + intros [H|[H1 [H2 [j [[<-|J] H3]]]]]; auto. right. eauto.
Qed.

(* prefixes set once are never changed by links *)
Definition keeps_prefix (ps ps' : dict dpool) : Prop :=
  forall x af v, dget af (dp_prefix (dp_get x ps)) = Some v -> dget af (dp_prefix (dp_get x ps')) = Some v.

Lemma link_af_spec : forall nodes l pid ps f,
  let r := link_af_pool addr nodes l pid ps f in
  (forall x af a, has (fst r) x af a <-> has ps x af a \/ (x = pid /\ af = f /\ link_excludes nodes l f a))
  /\ (forall x, dp_active (dp_get x (fst r)) = dp_active (dp_get x ps))
  /\ keeps_prefix ps (fst r)
  /\ (snd r = [] -> forall s, In f (dl_subnet l) -> dget f (dl_prefix l) = Some (DvStr s) ->
        dget f (dp_prefix (dp_get pid (fst r))) = Some s).
Proof.
  intros nodes l pid ps f r. unfold r, link_af_pool, link_excludes, keeps_prefix.
  destruct (memS f (dl_subnet l)) eqn:M; simpl negb; cbv iota.
  2:{ apply memS_false in M. cbn [fst snd]. split; [|split; [auto|split; [auto|tauto]]].
      intros x af a. split; auto. intros [H|[_ [_ [H _]]]]; auto. contradiction. }
  apply memS_true in M.
  destruct (dget f (dl_prefix l)) as [[pfx| |]|] eqn:Px.
  2,3,4: cbn [fst snd]; split; [|split; [auto|split; [auto|discriminate]]];
    intros x af a; split; auto; intros [H|[_ [_ [_ [[s H] _]]]]]; auto; discriminate.
  set (p1 := match dget f (dp_prefix (dp_get pid ps)) with
             | Some old => (ps, if String.eqb old pfx then [] else [(pid, f)])
             | None => (upd pid (p_prefix f pfx) ps, [])
             end).
  assert (P1 : (forall x af a, has (fst p1) x af a <-> has ps x af a)
    /\ (forall x, dp_active (dp_get x (fst p1)) = dp_active (dp_get x ps))
    /\ keeps_prefix ps (fst p1)
    /\ (snd p1 = [] -> dget f (dp_prefix (dp_get pid (fst p1))) = Some pfx)).
  { unfold p1. destruct (dget f (dp_prefix (dp_get pid ps))) as [old|] eqn:O; cbn [fst snd].
    - split; [reflexivity|]. split; [reflexivity|]. split; [intros x af v H; exact H|].
      destruct (String.eqb_spec old pfx) as [->|]; [auto|discriminate].
    - split; [intros; now apply has_keep|]. split.
      { intros x. rewrite upd_dp_get. destruct (String.eqb_spec x pid) as [->|]; auto. }
      split.
      + intros x af v H. rewrite upd_dp_get. destruct (String.eqb_spec x pid) as [->|]; auto.
        cbn [dp_prefix p_prefix]. rewrite dset_get. destruct (String.eqb_spec af f) as [->|]; auto. congruence.
      + intros _. rewrite upd_dp_get, String.eqb_refl. cbn [dp_prefix p_prefix]. now rewrite dset_get, String.eqb_refl. }
  destruct p1 as [ps1 e]. cbn [fst snd] in P1. destruct P1 as [P1 [P2 [P3 P4]]].
  set (ps2 := match dget f (dl_gw l) with Some a => upd pid (p_gw f (addr a)) ps1 | None => ps1 end).
  assert (Q : (forall x af a, has ps2 x af a <-> has ps1 x af a)
    /\ (forall x, dp_active (dp_get x ps2) = dp_active (dp_get x ps1))
    /\ (forall x, dp_prefix (dp_get x ps2) = dp_prefix (dp_get x ps1))).
  { unfold ps2. destruct (dget f (dl_gw l)) as [g|]; [|split; [reflexivity|auto]].
    split; [intros; now apply has_keep|]. split; intros x; rewrite upd_dp_get; destruct (String.eqb_spec x pid) as [->|]; auto. }
  destruct Q as [Q1 [Q2 Q3]]. destruct (link_intfs_spec nodes pid f (dl_intf l) ps2) as [L1 [L2 L3]].
  cbn [fst snd]. split; [|split; [|split]].
  - intros x af a. rewrite L1, Q1, P1. split.
    + intros [H|[H1 [H2 H3]]]; auto. right. split; auto. split; auto. split; auto. split; eauto.
    + intros [H|[H1 [H2 [_ [_ H3]]]]]; auto.
  - intros x. now rewrite L2, Q2, P2.
  - intros x af v H. rewrite L3, Q3. now apply P3.
  - intros E s _ H. rewrite L3, Q3. injection H as <-. auto.
Qed.

Definition nonempty_str (o : option string) : option string := match o with Some EmptyString => None | x => x end.

Lemma link_pool_spec : forall nodes ps l,
  let r := link_pool make_id addr nodes ps l in
  (forall x af a, has (fst r) x af a <-> has ps x af a \/ (x = link_pid make_id l /\ is_af af /\ link_excludes nodes l af a))
  /\ (forall x, dp_active (dp_get x (fst r)) = true <-> dp_active (dp_get x ps) = true \/ (x = link_pid make_id l /\ dl_subnet l <> []))
  /\ keeps_prefix ps (fst r)
  /\ (snd r = [] -> forall af s, is_af af -> In af (dl_subnet l) -> dget af (dl_prefix l) = Some (DvStr s) ->
        dget af (dp_prefix (dp_get (link_pid make_id l) (fst r))) = Some s).
Proof.
  intros nodes ps l r. unfold r, link_pool.
  destruct (dl_subnet l) as [|s0 ss] eqn:Sb.
  { cbn [fst snd]. split; [|split; [|split]].
    - intros x af a. split; auto. intros [H|[_ [_ [H _]]]]; auto. rewrite Sb in H. destruct H.
    - intros x. split; auto. intros [H|[_ H]]; auto.
    - intros x af v H. exact H.
    - intros _ af s _ []. }
  cbv zeta. set (pid := link_pid make_id l).
  set (ps1 := match dl_vlan l with None | Some EmptyString => _ | Some _ => ps end).
  assert (P1 : (forall x af a, has ps1 x af a <-> has ps x af a)
    /\ (forall x, dp_active (dp_get x ps1) = dp_active (dp_get x ps))
    /\ (forall x, dp_prefix (dp_get x ps1) = dp_prefix (dp_get x ps))).
  { assert (G : let q := upd pid (p_name (dl_name l)) ps in
      let q' := match dl_vrf l with Some x => upd pid (p_vrf x) q | None => q end in
      (forall x af a, has q' x af a <-> has ps x af a)
      /\ (forall x, dp_active (dp_get x q') = dp_active (dp_get x ps))
      /\ (forall x, dp_prefix (dp_get x q') = dp_prefix (dp_get x ps))).
    { cbv zeta. destruct (dl_vrf l) as [w|].
      - split; [intros; rewrite has_keep by reflexivity; now apply has_keep|].
        split; intros x; rewrite !upd_dp_get; destruct (String.eqb_spec x pid) as [->|]; auto;
          rewrite String.eqb_refl; reflexivity.
      - split; [intros; now apply has_keep|].
        split; intros x; rewrite !upd_dp_get; destruct (String.eqb_spec x pid) as [->|]; auto. }
    unfold ps1. destruct (dl_vlan l) as [[|c v]|]; auto; try exact G. split; [reflexivity|auto]. }
  destruct P1 as [P1 [P2 P3]].
  set (ps2 := upd pid p_activate ps1).
  assert (Q : (forall x af a, has ps2 x af a <-> has ps1 x af a)
    /\ (forall x, dp_active (dp_get x ps2) = true <-> dp_active (dp_get x ps1) = true \/ x = pid)
    /\ (forall x, dp_prefix (dp_get x ps2) = dp_prefix (dp_get x ps1))).
  { unfold ps2. split; [intros; now apply has_keep|]. split.
    - intros x. rewrite upd_dp_get. destruct (String.eqb_spec x pid) as [->|]; [simpl; tauto|]. tauto.
    - intros x. rewrite upd_dp_get. destruct (String.eqb_spec x pid) as [->|]; auto. }
  destruct Q as [Q1 [Q2 Q3]].
  unfold AFS. cbn [fold_left].
  pose proof (link_af_spec nodes l pid ps2 "ipv4") as [A1 [A2 [A3 A4]]].
  destruct (link_af_pool addr nodes l pid ps2 "ipv4") as [ps4 e4]. cbn [fst snd] in A1, A2, A3, A4.
  pose proof (link_af_spec nodes l pid ps4 "ipv6") as [B1 [B2 [B3 B4]]].
  destruct (link_af_pool addr nodes l pid ps4 "ipv6") as [ps6 e6]. cbn [fst snd] in *.
  split; [|split; [|split]].
  - intros x af a. rewrite B1, A1, Q1, P1. split.
    + intros [[H|[H1 [H2 H3]]]|[H1 [H2 H3]]]; auto; right; (split; [auto|]); subst af; unfold is_af; auto.
    + intros [H|[H1 [[-> | ->] H3]]]; auto.
  - intros x. rewrite B2, A2, Q2, P2. split; (intros [H|H]; [auto|right]); [split; [auto|discriminate]|tauto].
  - intros x af v H. apply B3, A3. rewrite Q3, P3. exact H.
  - rewrite app_nil_l. intros E af s A I Px. apply app_eq_nil in E. destruct E as [E4 E6]. rewrite <- Sb in I.
    destruct A as [-> | ->].
    + apply B3. apply A4; auto.
    + apply B4; auto.
Qed.

Lemma link_pools_spec : forall nodes ls ps,
  let r := link_pools make_id addr nodes ps ls in
  (forall x af a, has (fst r) x af a <->
     has ps x af a \/ exists l, In l ls /\ x = link_pid make_id l /\ is_af af /\ link_excludes nodes l af a)
  /\ (forall x, dp_active (dp_get x (fst r)) = true <->
     dp_active (dp_get x ps) = true \/ exists l, In l ls /\ x = link_pid make_id l /\ dl_subnet l <> [])
  /\ keeps_prefix ps (fst r)
  /\ (snd r = [] -> forall l af s, In l ls -> is_af af -> In af (dl_subnet l) -> dget af (dl_prefix l) = Some (DvStr s) ->
        dget af (dp_prefix (dp_get (link_pid make_id l) (fst r))) = Some s).
Proof.
  intros nodes ls. induction ls as [|l r IH]; intros ps res; unfold res; clear res.
  - cbn [link_pools fst snd]. split; [|split; [|split]].
    + intros x af a. split; auto. intros [H|[l [[] _]]]; auto.
    + intros x. split; auto. intros [H|[l [[] _]]]; auto.
    + intros x af v H. exact H.
    + intros _ l af s [].
  - cbn [link_pools]. pose proof (link_pool_spec nodes ps l) as [A1 [A2 [A3 A4]]].
    destruct (link_pool make_id addr nodes ps l) as [ps1 e]. cbn [fst snd] in *.
    pose proof (IH ps1) as [B1 [B2 [B3 B4]]]. destruct (link_pools make_id addr nodes ps1 r) as [ps2 es]. cbn [fst snd] in *.
    split; [|split; [|split]].
    + intros x af a. rewrite B1, A1. split.
      * intros [[H|H]|[m [M H]]]; auto; right; [exists l|exists m]; simpl; auto.
      * intros [H|[m [[<-|M] H]]]; auto. right. eauto.
    + intros x. rewrite B2, A2. split.
      * intros [[H|H]|[m [M H]]]; auto; right; [exists l|exists m]; simpl; auto.
      * intros [H|[m [[<-|M] H]]]; auto. right. eauto.
    + intros x af v H. apply B3, A3, H.
    + intros E m af s M A I Px. apply app_eq_nil in E. destruct E as [E1 E2]. destruct M as [<-|M]; [|eauto].
      apply B3. apply A4; auto.
Qed.

(* what the user sees: the list of pools *)
Lemma build_get : forall vlans nodes links x,
  let ps3 := fst (link_pools make_id addr nodes
      (fold_left (svi_pool make_id addr) (flat_map snd nodes) (fold_left (vlan_pool make_id addr) vlans [])) links) in
  NoDup (dkeys ps3) ->
  dget x (fst (build_pools make_id addr vlans nodes links)) =
  match dget x ps3 with
  | Some p => if dp_active p then Some (match dp_name p with Some _ => p | None => p_name x p end) else None
  | None => None
  end.
Proof.
  intros vlans nodes links x ps3. unfold ps3, build_pools.
  destruct (link_pools make_id addr nodes _ links) as [q e]. cbn [fst]. clear ps3. intros N.
  induction q as [|[k p] r IH]; simpl; auto.
  inversion N as [|? ? N1 N2]; subst. specialize (IH N2).
  destruct (String.eqb_spec x k) as [->|E].
  - destruct (dp_active p) eqn:A; simpl; rewrite ?A; simpl.
    + now rewrite String.eqb_refl.
    + rewrite IH. assert (Z : dget k r = None) by (apply dget_None; auto). now rewrite Z.
  - destruct (dp_active p); simpl; auto. apply String.eqb_neq in E. now rewrite E.
Qed.

Lemma NoDup_upd : forall pid g ps, NoDup (dkeys ps) -> NoDup (dkeys (upd pid g ps)).
Proof. intros. unfold upd. now apply NoDup_dset. Qed.

Lemma NoDup_fold : forall (A : Type) (g : dict dpool -> A -> dict dpool) l ps,
  (forall q a, NoDup (dkeys q) -> NoDup (dkeys (g q a))) -> NoDup (dkeys ps) -> NoDup (dkeys (fold_left g l ps)).
Proof. intros A g l. induction l as [|a r IH]; intros ps H N; simpl; auto. Qed.

Lemma NoDup_link_af : forall nodes l pid ps f, NoDup (dkeys ps) -> NoDup (dkeys (fst (link_af_pool addr nodes l pid ps f))).
Proof.
  intros nodes l pid ps f N. unfold link_af_pool. destruct (negb (memS f (dl_subnet l))); auto.
  destruct (dget f (dl_prefix l)) as [[pfx| |]|]; auto.
  assert (G : forall q, NoDup (dkeys q) -> NoDup (dkeys (fold_left (link_intf_pool addr nodes pid f) (dl_intf l)
     (match dget f (dl_gw l) with Some a => upd pid (p_gw f (addr a)) q | None => q end)))).
  { intros q Nq. apply NoDup_fold.
    - intros q' i Nq'. unfold link_intf_pool. destruct (dget f (di_addr i)) as [[a| |]|]; auto.
      destruct (node_client nodes i f) as [[|]|]; auto. now apply NoDup_upd.
    - destruct (dget f (dl_gw l)); auto. now apply NoDup_upd. }
  destruct (dget f (dp_prefix (dp_get pid ps))); cbn [fst]; apply G; auto. now apply NoDup_upd.
Qed.

Lemma NoDup_link : forall nodes ps l, NoDup (dkeys ps) -> NoDup (dkeys (fst (link_pool make_id addr nodes ps l))).
Proof.
  intros nodes ps l N. unfold link_pool. destruct (dl_subnet l) as [|s0 ss]; auto. cbv zeta.
  unfold AFS. cbn [fold_left]. set (pid := link_pid make_id l). set (ps2 := upd pid p_activate _).
  assert (N2 : NoDup (dkeys ps2)).
  { unfold ps2. apply NoDup_upd. destruct (dl_vlan l) as [[|c v]|]; auto;
      (destruct (dl_vrf l); repeat apply NoDup_upd; auto). }
  pose proof (NoDup_link_af nodes l pid ps2 "ipv4" N2) as N4.
  destruct (link_af_pool addr nodes l pid ps2 "ipv4") as [ps4 e4]. cbn [fst] in N4.
  pose proof (NoDup_link_af nodes l pid ps4 "ipv6" N4) as N6.
  destruct (link_af_pool addr nodes l pid ps4 "ipv6") as [ps6 e6]. exact N6.
Qed.

Lemma NoDup_links : forall nodes ls ps, NoDup (dkeys ps) -> NoDup (dkeys (fst (link_pools make_id addr nodes ps ls))).
Proof.
  intros nodes ls. induction ls as [|l r IH]; intros ps N; cbn [link_pools]; auto.
  pose proof (NoDup_link nodes ps l N) as N1. destruct (link_pool make_id addr nodes ps l) as [ps1 e]. cbn [fst] in N1.
  specialize (IH ps1 N1). destruct (link_pools make_id addr nodes ps1 r). exact IH.
Qed.

Lemma NoDup_phases : forall vlans l, NoDup (dkeys (fold_left (svi_pool make_id addr) l (fold_left (vlan_pool make_id addr) vlans []))).
Proof.
  intros vlans l. apply NoDup_fold; [|apply NoDup_fold; [|constructor]].
  - intros q i N. unfold svi_pool. destruct (di_vlan i) as [[|c v]|]; auto.
    destruct (dmem (vlan_pid make_id (String c v)) q); auto. apply NoDup_fold; auto.
    intros q' af N'. destruct (dget af (di_addr i)) as [[a| |]|]; auto. now apply NoDup_upd.
  - intros q v N. unfold vlan_pool. destruct (dv_route v); auto. cbv zeta.
    set (q1 := fold_left _ AFS q).
    assert (N1 : NoDup (dkeys q1)).
    { unfold q1. apply NoDup_fold; auto. intros q' af N'. cbv zeta.
      destruct (dget af (dv_prefix v)) as [[s| |]|]; destruct (dget af (dv_gw v)); auto; repeat apply NoDup_upd; auto. }
    destruct (dv_vrf v); auto. destruct (dmem _ q1); auto. now apply NoDup_upd.
Qed.

(* C94: a pool exists exactly for the links with DHCP clients *)
Theorem dhcp_pool_exists : forall vlans nodes links pid,
  dmem pid (fst (build_pools make_id addr vlans nodes links)) = true <->
  exists l, In l links /\ pid = link_pid make_id l /\ dl_subnet l <> [].
Proof.
  intros vlans nodes links pid.
  set (ps2 := fold_left (svi_pool make_id addr) (flat_map snd nodes) (fold_left (vlan_pool make_id addr) vlans [])).
  assert (N : NoDup (dkeys (fst (link_pools make_id addr nodes ps2 links)))) by (apply NoDup_links; apply NoDup_phases).
  unfold dmem. rewrite (build_get vlans nodes links pid N). fold ps2.
  destruct (link_pools_spec nodes links ps2) as [_ [A _]]. specialize (A pid).
  destruct (svi_pools_spec (flat_map snd nodes) (fold_left (vlan_pool make_id addr) vlans [])) as [_ [_ S]].
  destruct (vlan_pools_spec vlans []) as [_ [_ V]].
  assert (F : dp_active (dp_get pid ps2) = false) by (unfold ps2; rewrite S, V; reflexivity).
  rewrite F in A. unfold dp_get in A.
  destruct (dget pid (fst (link_pools make_id addr nodes ps2 links))) as [p|].
  - destruct (dp_active p).
    + split; auto. intros _. destruct (proj1 A eq_refl) as [H|H]; [discriminate|exact H].
    + split; [discriminate|]. intros H. exfalso. assert (X : false = true) by (apply A; auto). discriminate.
  - split; [discriminate|]. intros H. exfalso. assert (X : false = true) by (apply A; auto). discriminate.
Qed.

(* C94: the excluded addresses of a pool are exactly the static addresses on its links and on the SVIs of its VLAN *)
Theorem dhcp_pool_excluded : forall vlans nodes links pid p af a,
  dget pid (fst (build_pools make_id addr vlans nodes links)) = Some p -> is_af af ->
  (In a (excl p af) <->
   (exists l, In l links /\ link_pid make_id l = pid /\ In af (dl_subnet l)
      /\ (exists s, dget af (dl_prefix l) = Some (DvStr s))
      /\ exists i b, In i (dl_intf l) /\ dget af (di_addr i) = Some (DvStr b) /\ a = addr b
         /\ node_client nodes i af = Some false)
   \/ (exists v, In v vlans /\ vlan_pid make_id (dv_name v) = pid /\ vlan_usable v)
      /\ exists n l i b, In (n, l) nodes /\ In i l /\ svi_of i pid /\ dget af (di_addr i) = Some (DvStr b) /\ a = addr b).
Proof.
  intros vlans nodes links pid p af a E A.
  set (ps1 := fold_left (vlan_pool make_id addr) vlans []).
  set (ps2 := fold_left (svi_pool make_id addr) (flat_map snd nodes) ps1).
  assert (N : NoDup (dkeys (fst (link_pools make_id addr nodes ps2 links)))) by (apply NoDup_links; apply NoDup_phases).
  rewrite (build_get vlans nodes links pid N) in E. fold ps1 in E. fold ps2 in E.
  destruct (dget pid (fst (link_pools make_id addr nodes ps2 links))) as [p0|] eqn:G; [|discriminate].
  destruct (dp_active p0); [|discriminate]. injection E as E.
  assert (X : excl p af = excl (dp_get pid (fst (link_pools make_id addr nodes ps2 links))) af).
  { unfold dp_get. rewrite G, <- E. destruct (dp_name p0); reflexivity. }
  rewrite X. fold (has (fst (link_pools make_id addr nodes ps2 links)) pid af a).
  destruct (link_pools_spec nodes links ps2) as [L _]. rewrite L.
  destruct (svi_pools_spec (flat_map snd nodes) ps1) as [S _]. unfold ps2. rewrite S.
  destruct (vlan_pools_spec vlans []) as [V1 [V2 _]]. fold ps1 in V1, V2. rewrite V1, V2.
  assert (Z : has [] pid af a <-> False) by (unfold has, excl, dp_get; simpl; tauto). rewrite Z.
  unfold link_excludes, static_addr, str_addr. split.
  - intros [[[]|[[D|[v [V [-> U]]]] [i [I [Sv [_ [b [B1 B2]]]]]]]]|[l [Il [-> [_ [Sb [Px [i [I [[b [B1 B2]] Nc]]]]]]]]]].
    + discriminate.
    + right. split; [exists v; auto|]. apply in_flat_map in I. destruct I as [[n l] [I1 I2]].
      exists n, l, i, b. auto.
    + left. exists l. repeat (split; [auto|]). exists i, b. auto.
  - intros [[l [Il [P [Sb [Px [i [b [I [B1 [B2 Nc]]]]]]]]]]|[[v [V [P U]]] [n [l [i [b [I1 [I2 [Sv [B1 B2]]]]]]]]]].
    + right. exists l. split; [auto|]. split; [auto|]. split; [auto|]. split; [auto|]. split; [auto|].
      exists i. split; auto. split; auto. exists b. auto.
    + left. right. split; [right; exists v; auto|]. exists i. split; [|split; [auto|split; [auto|exists b; auto]]].
      apply in_flat_map. exists (n, l). auto.
Qed.

(* C94: without reported mismatches a pool has the prefixes of all its links *)
Theorem dhcp_pool_prefix : forall vlans nodes links l af s,
  snd (build_pools make_id addr vlans nodes links) = [] ->
  In l links -> is_af af -> In af (dl_subnet l) -> dget af (dl_prefix l) = Some (DvStr s) ->
  exists p, dget (link_pid make_id l) (fst (build_pools make_id addr vlans nodes links)) = Some p
    /\ dget af (dp_prefix p) = Some s.
Proof.
  intros vlans nodes links l af s E I A Sb Px.
  set (ps2 := fold_left (svi_pool make_id addr) (flat_map snd nodes) (fold_left (vlan_pool make_id addr) vlans [])).
  assert (N : NoDup (dkeys (fst (link_pools make_id addr nodes ps2 links)))) by (apply NoDup_links; apply NoDup_phases).
  assert (D : dmem (link_pid make_id l) (fst (build_pools make_id addr vlans nodes links)) = true).
  { apply dhcp_pool_exists. exists l. split; auto. split; auto. intros H. rewrite H in Sb. destruct Sb. }
  assert (E' : snd (link_pools make_id addr nodes ps2 links) = []).
  { unfold build_pools in E. fold ps2 in E. destruct (link_pools make_id addr nodes ps2 links). exact E. }
  destruct (link_pools_spec nodes links ps2) as [_ [_ [_ P]]]. specialize (P E' l af s I A Sb Px).
  unfold dmem in D. pose proof (build_get vlans nodes links (link_pid make_id l) N) as G. fold ps2 in G.
  destruct (dget (link_pid make_id l) (fst (build_pools make_id addr vlans nodes links))) as [p|]; [|discriminate].
  exists p. split; auto. unfold dp_get in P.
  destruct (dget (link_pid make_id l) (fst (link_pools make_id addr nodes ps2 links))) as [p0|]; [|discriminate].
  destruct (dp_active p0); [|discriminate]. injection G as ->. destruct (dp_name p0); exact P.
Qed.

(* the last element of a list that gives a value *)
Definition last_of {A T : Type} (c : A -> option T) (l : list A) (v : T) : Prop :=
  exists l1 x l2, l = l1 ++ x :: l2 /\ c x = Some v /\ forall y, In y l2 -> c y = None.
Definition none_of {A T : Type} (c : A -> option T) (l : list A) : Prop := forall y, In y l -> c y = None.

Lemma last_fold : forall (S A T : Type) (step : S -> A -> S) (obs : S -> option T) (c : A -> option T),
  (forall s a, obs (step s a) = match c a with Some v => Some v | None => obs s end) ->
  forall l s v, obs (fold_left step l s) = Some v <-> last_of c l v \/ (none_of c l /\ obs s = Some v).
Proof.
  intros S A T step obs c H l. induction l as [|a r IH] using rev_ind; intros s v.
  - simpl. split; [intros E; right; split; auto; intros y []|]. intros [[l1 [x [l2 [E _]]]]|[_ E]]; auto. now destruct l1.
  - rewrite fold_left_app. simpl. rewrite H. destruct (c a) as [w|] eqn:C.
    + split.
      * intros E. injection E as ->. left. exists r, a, []. split; auto. split; auto. intros y [].
      * intros [[l1 [x [l2 [E [X Y]]]]]|[N _]].
        -- destruct l2 as [|y l2 _] using rev_ind.
           ++ apply app_inj_tail in E. destruct E as [_ <-]. congruence.
           ++ change (l1 ++ x :: (l2 ++ [y])) with (l1 ++ (x :: l2) ++ [y]) in E. rewrite app_assoc in E. apply app_inj_tail in E.
              destruct E as [_ <-]. rewrite Y in C; [discriminate|]. apply in_or_app. simpl. auto.
        -- rewrite N in C; [discriminate|]. apply in_or_app. simpl. auto.
    + rewrite IH. split.
      * intros [[l1 [x [l2 [E [X Y]]]]]|[N E]].
        -- left. exists l1, x, (l2 ++ [a]). split; [rewrite E; now rewrite <- app_assoc|]. split; auto.
           intros y I. apply in_app_or in I. destruct I as [I|[<-|[]]]; auto.
        -- right. split; auto. intros y I. apply in_app_or in I. destruct I as [I|[<-|[]]]; auto.
      * intros [[l1 [x [l2 [E [X Y]]]]]|[N E]].
        -- left. destruct l2 as [|y l2 _] using rev_ind.
           ++ apply app_inj_tail in E. destruct E as [_ <-]. congruence.
           ++ change (l1 ++ x :: (l2 ++ [y])) with (l1 ++ (x :: l2) ++ [y]) in E. rewrite app_assoc in E. apply app_inj_tail in E.
              destruct E as [-> _]. exists l1, x, l2. split; auto. split; auto. intros z Z. apply Y. apply in_or_app. auto.
        -- right. split; auto. intros y I. apply N. apply in_or_app. auto.
Qed.

(* the gateway a link or VLAN gives to a pool *)
Definition link_gw (pid af : string) (l : dlink) : option string :=
  if String.eqb pid (link_pid make_id l) && memS af (dl_subnet l)
  then match dget af (dl_prefix l) with Some (DvStr _) => option_map addr (dget af (dl_gw l)) | _ => None end
  else None.
Definition vlan_gw (pid af : string) (v : dvlan) : option string :=
  if negb (dv_route v) && String.eqb pid (vlan_pid make_id (dv_name v)) then option_map addr (dget af (dv_gw v)) else None.

(* the name and VRF a link that is not in a VLAN gives to a pool *)
Definition plain_link (pid : string) (l : dlink) : bool :=
  match dl_subnet l with [] => false | _ => true end
  && match dl_vlan l with None | Some EmptyString => true | Some _ => false end && String.eqb pid (link_pid make_id l).
Definition link_name (pid : string) (l : dlink) : option string := if plain_link pid l then Some (dl_name l) else None.
Definition link_vrf (pid : string) (l : dlink) : option string := if plain_link pid l then dl_vrf l else None.

(* an observation of one pool *)
Lemma obs_other : forall (T : Type) (o : dpool -> T) pid g ps x, (forall p, o (g p) = o p) ->
  o (dp_get x (upd pid g ps)) = o (dp_get x ps).
Proof. intros. rewrite upd_dp_get. destruct (String.eqb_spec x pid) as [->|]; auto. Qed.

Lemma fold_obs : forall (A T : Type) (o : dpool -> T) (g : dict dpool -> A -> dict dpool) x,
  (forall ps a, o (dp_get x (g ps a)) = o (dp_get x ps)) -> forall l ps, o (dp_get x (fold_left g l ps)) = o (dp_get x ps).
Proof. intros A T o g x H l. induction l as [|a r IH]; intros ps; simpl; auto. now rewrite IH. Qed.

Lemma svi_obs : forall (T : Type) (o : dpool -> T), (forall af v p, o (p_excl af v p) = o p) ->
  forall x l ps, o (dp_get x (fold_left (svi_pool make_id addr) l ps)) = o (dp_get x ps).
Proof.
  intros T o H x. apply fold_obs. intros ps i. unfold svi_pool. destruct (di_vlan i) as [[|c v]|]; auto.
  destruct (dmem _ ps); auto. apply fold_obs. intros q af. destruct (dget af (di_addr i)) as [[a| |]|]; auto.
  apply obs_other. auto.
Qed.

Lemma link_intf_obs : forall (T : Type) (o : dpool -> T), (forall af v p, o (p_excl af v p) = o p) ->
  forall nodes pid f x l ps, o (dp_get x (fold_left (link_intf_pool addr nodes pid f) l ps)) = o (dp_get x ps).
Proof.
  intros T o H nodes pid f x. apply fold_obs. intros ps i. unfold link_intf_pool. destruct (dget f (di_addr i)) as [[a| |]|]; auto.
  destruct (node_client nodes i f) as [[|]|]; auto. apply obs_other. auto.
Qed.

Lemma link_af_obs : forall (T : Type) (o : dpool -> T),
  (forall af v p, o (p_excl af v p) = o p) -> (forall af v p, o (p_gw af v p) = o p) -> (forall af v p, o (p_prefix af v p) = o p) ->
  forall nodes l pid f x ps, o (dp_get x (fst (link_af_pool addr nodes l pid ps f))) = o (dp_get x ps).
Proof.
  intros T o H1 H2 H3 nodes l pid f x ps. unfold link_af_pool. destruct (negb (memS f (dl_subnet l))); auto.
  destruct (dget f (dl_prefix l)) as [[pfx| |]|]; auto.
  assert (G : forall q, o (dp_get x (fold_left (link_intf_pool addr nodes pid f) (dl_intf l)
     (match dget f (dl_gw l) with Some a => upd pid (p_gw f (addr a)) q | None => q end))) = o (dp_get x q)).
  { intros q. rewrite link_intf_obs; auto. destruct (dget f (dl_gw l)); auto. apply obs_other. auto. }
  destruct (dget f (dp_prefix (dp_get pid ps))); cbn [fst]; rewrite G; auto. apply obs_other. auto.
Qed.

Lemma link_af_gw : forall nodes l pid f x af ps, link_pid make_id l = pid ->
  dget af (dp_gw (dp_get x (fst (link_af_pool addr nodes l pid ps f)))) =
  if String.eqb af f then match link_gw x f l with Some v => Some v | None => dget af (dp_gw (dp_get x ps)) end
  else dget af (dp_gw (dp_get x ps)).
Proof.
  intros nodes l pid f x af ps Ep. unfold link_af_pool, link_gw. rewrite Ep. destruct (memS f (dl_subnet l)); simpl negb; cbv iota.
  2:{ rewrite andb_false_r. cbn [fst]. now destruct (String.eqb af f). }
  rewrite andb_true_r.
  destruct (dget f (dl_prefix l)) as [[pfx| |]|].
  2,3,4: cbn [fst]; destruct (String.eqb af f), (String.eqb x pid); reflexivity.
  assert (G : forall q, dget af (dp_gw (dp_get x (fold_left (link_intf_pool addr nodes pid f) (dl_intf l)
     (match dget f (dl_gw l) with Some a => upd pid (p_gw f (addr a)) q | None => q end)))) =
     if String.eqb af f then match (if String.eqb x pid then option_map addr (dget f (dl_gw l)) else None) with Some v => Some v
                             | None => dget af (dp_gw (dp_get x q)) end
     else dget af (dp_gw (dp_get x q))).
  { intros q. rewrite (link_intf_obs _ (fun p => dget af (dp_gw p))) by reflexivity.
    destruct (dget f (dl_gw l)) as [g|]; simpl.
    - rewrite upd_dp_get. destruct (String.eqb_spec x pid) as [->|].
      + cbn [dp_gw p_gw]. rewrite dset_get. now destruct (String.eqb af f).
      + now destruct (String.eqb af f).
    - now destruct (String.eqb x pid), (String.eqb af f). }
  assert (K : dget af (dp_gw (dp_get x (upd pid (p_prefix f pfx) ps))) = dget af (dp_gw (dp_get x ps)))
    by (apply (obs_other _ (fun p => dget af (dp_gw p))); reflexivity).
  destruct (dget f (dp_prefix (dp_get pid ps))); cbn [fst]; rewrite G, ?K; reflexivity.
Qed.

Lemma link_pool_obs : forall nodes ps l x,
  let q := fst (link_pool make_id addr nodes ps l) in
  (forall af, is_af af -> dget af (dp_gw (dp_get x q)) = match link_gw x af l with Some v => Some v | None => dget af (dp_gw (dp_get x ps)) end)
  /\ dp_name (dp_get x q) = match link_name x l with Some v => Some v | None => dp_name (dp_get x ps) end
  /\ dp_vrf (dp_get x q) = match link_vrf x l with Some v => Some v | None => dp_vrf (dp_get x ps) end.
Proof.
  intros nodes ps l x q. unfold q, link_pool, link_name, link_vrf, plain_link.
  destruct (dl_subnet l) as [|s0 ss] eqn:Sb.
  { cbn [fst andb]. split; [|auto]. intros af A. unfold link_gw. rewrite Sb. simpl. now rewrite andb_false_r. }
  cbv zeta. set (pid := link_pid make_id l). cbn [andb].
  set (ps1 := match dl_vlan l with None | Some EmptyString => _ | Some _ => ps end).
  assert (P : (forall af, dget af (dp_gw (dp_get x ps1)) = dget af (dp_gw (dp_get x ps)))
    /\ dp_name (dp_get x ps1) = match (if match dl_vlan l with None | Some EmptyString => true | Some _ => false end && String.eqb x pid then Some (dl_name l) else None) with
                                Some v => Some v | None => dp_name (dp_get x ps) end
    /\ dp_vrf (dp_get x ps1) = match (if match dl_vlan l with None | Some EmptyString => true | Some _ => false end && String.eqb x pid then dl_vrf l else None) with
                                Some v => Some v | None => dp_vrf (dp_get x ps) end).
  { assert (G : let q1 := upd pid (p_name (dl_name l)) ps in
      let q' := match dl_vrf l with Some x => upd pid (p_vrf x) q1 | None => q1 end in
      (forall af, dget af (dp_gw (dp_get x q')) = dget af (dp_gw (dp_get x ps)))
      /\ dp_name (dp_get x q') = match (if String.eqb x pid then Some (dl_name l) else None) with Some v => Some v | None => dp_name (dp_get x ps) end
      /\ dp_vrf (dp_get x q') = match (if String.eqb x pid then dl_vrf l else None) with Some v => Some v | None => dp_vrf (dp_get x ps) end).
    { cbv zeta. destruct (dl_vrf l) as [w|]; rewrite !upd_dp_get; rewrite ?String.eqb_refl;
        destruct (String.eqb_spec x pid) as [->|]; simpl; auto. }
    unfold ps1. destruct (dl_vlan l) as [[|c v]|]; auto; exact G. }
  destruct P as [P1 [P2 P3]]. set (ps2 := upd pid p_activate ps1).
  assert (Q1 : forall af, dget af (dp_gw (dp_get x ps2)) = dget af (dp_gw (dp_get x ps1)))
    by (intros af; apply (obs_other _ (fun p => dget af (dp_gw p))); reflexivity).
  assert (Q2 : dp_name (dp_get x ps2) = dp_name (dp_get x ps1)) by (apply obs_other; reflexivity).
  assert (Q3 : dp_vrf (dp_get x ps2) = dp_vrf (dp_get x ps1)) by (apply obs_other; reflexivity).
  unfold AFS. cbn [fold_left].
  pose proof (fun af => link_af_gw nodes l pid "ipv4" x af ps2 eq_refl) as G4.
  pose proof (link_af_obs _ dp_name (fun _ _ _ => eq_refl) (fun _ _ _ => eq_refl) (fun _ _ _ => eq_refl) nodes l pid "ipv4" x ps2) as N4.
  pose proof (link_af_obs _ dp_vrf (fun _ _ _ => eq_refl) (fun _ _ _ => eq_refl) (fun _ _ _ => eq_refl) nodes l pid "ipv4" x ps2) as V4.
  destruct (link_af_pool addr nodes l pid ps2 "ipv4") as [ps4 e4]. cbn [fst] in G4, N4, V4.
  pose proof (fun af => link_af_gw nodes l pid "ipv6" x af ps4 eq_refl) as G6.
  pose proof (link_af_obs _ dp_name (fun _ _ _ => eq_refl) (fun _ _ _ => eq_refl) (fun _ _ _ => eq_refl) nodes l pid "ipv6" x ps4) as N6.
  pose proof (link_af_obs _ dp_vrf (fun _ _ _ => eq_refl) (fun _ _ _ => eq_refl) (fun _ _ _ => eq_refl) nodes l pid "ipv6" x ps4) as V6.
  destruct (link_af_pool addr nodes l pid ps4 "ipv6") as [ps6 e6]. cbn [fst] in *.
  split; [|split; [now rewrite N6, N4, Q2, P2|now rewrite V6, V4, Q3, P3]].
  intros af A. rewrite G6, G4, Q1, P1. destruct A as [-> | ->]; simpl; reflexivity.
Qed.

Lemma link_pools_fold : forall nodes ls ps,
  fst (link_pools make_id addr nodes ps ls) = fold_left (fun q l => fst (link_pool make_id addr nodes q l)) ls ps.
Proof.
  intros nodes ls. induction ls as [|l r IH]; intros ps; cbn [link_pools fold_left]; auto.
  rewrite <- IH. destruct (link_pool make_id addr nodes ps l) as [q e]. cbn [fst]. now destruct (link_pools make_id addr nodes q r).
Qed.

Lemma vlan_pool_gw : forall ps v x af, is_af af ->
  dget af (dp_gw (dp_get x (vlan_pool make_id addr ps v))) =
  match vlan_gw x af v with Some w => Some w | None => dget af (dp_gw (dp_get x ps)) end.
Proof.
  intros ps v x af A. unfold vlan_pool, vlan_gw. destruct (dv_route v); auto. cbv zeta. simpl negb. cbn [andb].
  set (pid := vlan_pid make_id (dv_name v)). set (st := fun q af => _).
  assert (S : forall q f, dget af (dp_gw (dp_get x (st q f))) =
    if String.eqb af f then match (if String.eqb x pid then option_map addr (dget f (dv_gw v)) else None) with Some w => Some w | None => dget af (dp_gw (dp_get x q)) end
    else dget af (dp_gw (dp_get x q))).
  { intros q f. unfold st. cbv zeta.
    assert (G : forall q', dget af (dp_gw (dp_get x (match dget f (dv_gw v) with Some a => upd pid (p_gw f (addr a)) q' | None => q' end))) =
      if String.eqb af f then match (if String.eqb x pid then option_map addr (dget f (dv_gw v)) else None) with Some w => Some w | None => dget af (dp_gw (dp_get x q')) end
      else dget af (dp_gw (dp_get x q'))).
    { intros q'. destruct (dget f (dv_gw v)) as [g|]; simpl.
      - rewrite upd_dp_get. destruct (String.eqb_spec x pid) as [->|].
        + cbn [dp_gw p_gw]. rewrite dset_get. now destruct (String.eqb af f).
        + now destruct (String.eqb af f).
      - now destruct (String.eqb x pid), (String.eqb af f). }
    rewrite G. destruct (dget f (dv_prefix v)) as [[s| |]|]; auto.
    rewrite (obs_other _ (fun p => dget af (dp_gw p))) by reflexivity. reflexivity. }
  set (ps1 := fold_left st AFS ps).
  assert (E : dget af (dp_gw (dp_get x ps1)) =
    match (if String.eqb x pid then option_map addr (dget af (dv_gw v)) else None) with Some w => Some w | None => dget af (dp_gw (dp_get x ps)) end).
  { unfold ps1, AFS. cbn [fold_left]. rewrite !S. destruct A as [-> | ->]; simpl; reflexivity. }
  rewrite <- E. destruct (dv_vrf v); auto. destruct (dmem pid ps1); auto.
  apply (obs_other _ (fun p => dget af (dp_gw p))). reflexivity.
Qed.

Lemma vlan_pool_name : forall ps v x, dp_name (dp_get x (vlan_pool make_id addr ps v)) = dp_name (dp_get x ps).
Proof.
  intros ps v x. unfold vlan_pool. destruct (dv_route v); auto. cbv zeta.
  set (ps1 := fold_left _ AFS ps).
  assert (E : dp_name (dp_get x ps1) = dp_name (dp_get x ps)).
  { unfold ps1. apply fold_obs. intros q f. cbv zeta.
    destruct (dget f (dv_prefix v)) as [[s| |]|], (dget f (dv_gw v)); rewrite ?obs_other by reflexivity; reflexivity. }
  rewrite <- E. destruct (dv_vrf v); auto. destruct (dmem _ ps1); auto. apply obs_other. reflexivity.
Qed.

(* what a pool of the result has in common with the collected data *)
Lemma build_pool_of : forall vlans nodes links pid p,
  dget pid (fst (build_pools make_id addr vlans nodes links)) = Some p ->
  let q := dp_get pid (fold_left (fun q l => fst (link_pool make_id addr nodes q l)) links
    (fold_left (svi_pool make_id addr) (flat_map snd nodes) (fold_left (vlan_pool make_id addr) vlans []))) in
  dp_gw p = dp_gw q /\ dp_vrf p = dp_vrf q /\ dp_name p = match dp_name q with Some n => Some n | None => Some pid end.
Proof.
  intros vlans nodes links pid p E q. unfold q. clear q. rewrite <- link_pools_fold.
  set (ps2 := fold_left (svi_pool make_id addr) (flat_map snd nodes) (fold_left (vlan_pool make_id addr) vlans [])) in *.
  assert (N : NoDup (dkeys (fst (link_pools make_id addr nodes ps2 links)))) by (apply NoDup_links; apply NoDup_phases).
  rewrite (build_get vlans nodes links pid N) in E. fold ps2 in E. unfold dp_get.
  destruct (dget pid (fst (link_pools make_id addr nodes ps2 links))) as [p0|]; [|discriminate].
  destruct (dp_active p0); [|discriminate]. injection E as <-. destruct (dp_name p0) eqn:Q; simpl; rewrite ?Q; auto.
Qed.

(* C94: the gateway of a pool is the gateway of its last link that has one, or the gateway of its VLAN *)
Theorem dhcp_pool_gateway : forall vlans nodes links pid p af g,
  dget pid (fst (build_pools make_id addr vlans nodes links)) = Some p -> is_af af ->
  (dget af (dp_gw p) = Some g <->
   last_of (link_gw pid af) links g \/ (none_of (link_gw pid af) links /\ last_of (vlan_gw pid af) vlans g)).
Proof.
  intros vlans nodes links pid p af g E A. destruct (build_pool_of _ _ _ _ _ E) as [G _]. rewrite G. clear G E p.
  rewrite (last_fold _ _ _ (fun q l => fst (link_pool make_id addr nodes q l)) (fun ps => dget af (dp_gw (dp_get pid ps))) (link_gw pid af)).
  2:{ intros ps l. destruct (link_pool_obs nodes ps l pid) as [H _]. apply H, A. }
  rewrite (svi_obs _ (fun p => dget af (dp_gw p))) by reflexivity.
  rewrite (last_fold _ _ _ (vlan_pool make_id addr) (fun ps => dget af (dp_gw (dp_get pid ps))) (vlan_gw pid af)).
  2:{ intros ps l. now apply vlan_pool_gw. }
  split; [intros [H|[H1 [H2|[_ H2]]]]|intros [H|[H1 H2]]]; auto. discriminate.
Qed.

(* C94: the name of a pool is the name of its last link outside of a VLAN, or the identifier *)
Theorem dhcp_pool_name : forall vlans nodes links pid p n,
  dget pid (fst (build_pools make_id addr vlans nodes links)) = Some p ->
  (dp_name p = Some n <-> last_of (link_name pid) links n \/ (none_of (link_name pid) links /\ n = pid)).
Proof.
  intros vlans nodes links pid p n E. destruct (build_pool_of _ _ _ _ _ E) as [_ [_ Nm]]. rewrite Nm. clear Nm E p.
  set (ps2 := fold_left (svi_pool make_id addr) (flat_map snd nodes) (fold_left (vlan_pool make_id addr) vlans [])).
  assert (Z : dp_name (dp_get pid ps2) = None).
  { unfold ps2. rewrite (svi_obs _ dp_name) by reflexivity. rewrite (fold_obs _ _ dp_name); auto. intros; apply vlan_pool_name. }
  set (res := fold_left (fun q l => fst (link_pool make_id addr nodes q l)) links ps2).
  assert (H : forall v, dp_name (dp_get pid res) = Some v <-> last_of (link_name pid) links v \/ (none_of (link_name pid) links /\ dp_name (dp_get pid ps2) = Some v)).
  { intros v. unfold res. apply (last_fold _ _ _ (fun q l => fst (link_pool make_id addr nodes q l)) (fun ps => dp_name (dp_get pid ps)) (link_name pid)).
    intros ps l. now destruct (link_pool_obs nodes ps l pid) as [_ [H _]]. }
  rewrite Z in H.
  destruct (dp_name (dp_get pid res)) as [m|].
  - split.
    + intros E. injection E as <-. destruct (proj1 (H m) eq_refl) as [K|[_ K]]; [auto|discriminate].
    + intros [K|[K1 _]]; [apply H; auto|]. destruct (proj1 (H m) eq_refl) as [[l1 [x [l2 [E [X _]]]]]|[_ K]]; [|discriminate].
      rewrite K1 in X; [discriminate|]. rewrite E. apply in_or_app. simpl. auto.
  - split.
    + intros E. injection E as <-. right. split; auto. intros l I.
      destruct (link_name pid l) as [v|] eqn:L; auto. exfalso.
      assert (X : exists w, last_of (link_name pid) links w).
      { clear -I L. induction links as [|a r IH] using rev_ind; [destruct I|].
        destruct (link_name pid a) as [w|] eqn:La.
        - exists w, r, a, []. split; auto. split; auto. intros y [].
        - apply in_app_or in I. destruct I as [I|[<-|[]]]; [|congruence]. destruct (IH I) as [w [l1 [x [l2 [E [X Y]]]]]].
          exists w, l1, x, (l2 ++ [a]). split; [rewrite E; now rewrite <- app_assoc|]. split; auto.
          intros y J. apply in_app_or in J. destruct J as [J|[<-|[]]]; auto. }
      destruct X as [w W]. assert (Y : None = Some w) by (apply H; auto). discriminate.
    + intros [K|[_ ->]]; [|auto]. assert (Y : None = Some n) by (apply H; auto). discriminate.
Qed.

(* C94: the VRF of a pool is the VRF of its last link outside of a VLAN that has one, or the VRF of its VLAN *)
Definition vlan_usable_b (v : dvlan) : bool :=
  negb (dv_route v) && existsb (fun af => match dget af (dv_prefix v) with Some (DvStr _) => true | _ => dmem af (dv_gw v) end) AFS.

Lemma vlan_usable_spec : forall v, vlan_usable_b v = true <-> vlan_usable v.
Proof.
  intros v. unfold vlan_usable_b, vlan_usable. rewrite andb_true_iff, negb_true_iff, existsb_exists.
  assert (K : forall af, match dget af (dv_prefix v) with Some (DvStr _) => true | _ => dmem af (dv_gw v) end = true <->
    ((exists s, dget af (dv_prefix v) = Some (DvStr s)) \/ dget af (dv_gw v) <> None)).
  { intros af. unfold dmem. destruct (dget af (dv_prefix v)) as [[s| |]|]; [split; eauto| | |];
      (destruct (dget af (dv_gw v)); split; [intros; right; discriminate|auto|discriminate|intros [[s E]|E]; congruence]). }
  split; intros [R [af [A H]]]; split; auto; exists af; split.
  - apply is_af_mem. now apply memS_true.
  - now apply K.
  - apply is_af_mem in A. now apply memS_true in A.
  - now apply K.
Qed.

Definition vlan_vrf (pid : string) (v : dvlan) : option string :=
  if vlan_usable_b v && String.eqb pid (vlan_pid make_id (dv_name v)) then dv_vrf v else None.

Lemma vlan_pool_vrf : forall ps v x, dmem (vlan_pid make_id (dv_name v)) ps = false ->
  dp_vrf (dp_get x (vlan_pool make_id addr ps v)) = match vlan_vrf x v with Some w => Some w | None => dp_vrf (dp_get x ps) end.
Proof.
  intros ps v x F. destruct (vlan_pool_spec ps v) as [_ [D _]].
  specialize (D (vlan_pid make_id (dv_name v))). rewrite F in D. rewrite <- vlan_usable_spec in D.
  unfold vlan_vrf. unfold vlan_pool in *. destruct (dv_route v) eqn:R.
  { unfold vlan_usable_b. rewrite R. reflexivity. }
  cbv zeta in *. set (pid := vlan_pid make_id (dv_name v)) in *. set (ps1 := fold_left _ AFS ps) in *.
  assert (E : dp_vrf (dp_get x ps1) = dp_vrf (dp_get x ps)).
  { unfold ps1. apply fold_obs. intros q f. cbv zeta.
    destruct (dget f (dv_prefix v)) as [[s| |]|], (dget f (dv_gw v)); rewrite ?obs_other by reflexivity; reflexivity. }
  destruct (dv_vrf v) as [w|].
  - destruct (dmem pid ps1) eqn:M.
    + rewrite upd_dmem, String.eqb_refl in D. simpl in D. destruct (proj1 D eq_refl) as [H|[_ H]]; [discriminate|].
      rewrite H. simpl. rewrite upd_dp_get. destruct (String.eqb_spec x pid) as [->|]; auto.
    + destruct (vlan_usable_b v); [|simpl; auto]. rewrite M in D. assert (X : false = true) by (apply D; auto). discriminate.
  - rewrite E. now destruct (vlan_usable_b v && String.eqb x pid).
Qed.

Lemma vlan_pools_vrf : forall vlans ps x v,
  NoDup (map (fun v => vlan_pid make_id (dv_name v)) vlans) ->
  (forall v, In v vlans -> dmem (vlan_pid make_id (dv_name v)) ps = false) ->
  (dp_vrf (dp_get x (fold_left (vlan_pool make_id addr) vlans ps)) = Some v <->
   last_of (vlan_vrf x) vlans v \/ (none_of (vlan_vrf x) vlans /\ dp_vrf (dp_get x ps) = Some v)).
Proof.
  intros vlans. induction vlans as [|a r IH]; intros ps x v N F.
  - simpl. split; [intros E; right; split; auto; intros y []|]. intros [[l1 [y [l2 [E _]]]]|[_ E]]; auto. now destruct l1.
  - cbn [fold_left]. simpl in N. apply NoDup_cons_iff in N. destruct N as [N1 N2].
    rewrite IH; auto.
    + rewrite vlan_pool_vrf by (apply F; simpl; auto).
      split.
      * intros [[l1 [y [l2 [E H]]]]|[H1 H2]].
        -- left. exists (a :: l1), y, l2. split; [now rewrite E|auto].
        -- destruct (vlan_vrf x a) as [w|] eqn:W.
           ++ injection H2 as <-. left. exists [], a, r. auto.
           ++ right. split; auto. intros y [<-|I]; auto.
      * intros [[l1 [y [l2 [E [H1 H2]]]]]|[H1 H2]].
        -- destruct l1 as [|b l1]; injection E as -> E.
           ++ right. subst r. split; auto. now rewrite H1.
           ++ left. exists l1, y, l2. auto.
        -- right. split; [intros y I; apply H1; simpl; auto|]. rewrite (H1 a (or_introl eq_refl)). exact H2.
    + intros b I. destruct (vlan_pool_spec ps a) as [_ [D _]].
      destruct (dmem (vlan_pid make_id (dv_name b)) (vlan_pool make_id addr ps a)) eqn:M; auto. apply D in M.
      destruct M as [M|[M _]].
      * rewrite F in M; [discriminate|simpl; auto].
      * exfalso. apply N1. rewrite <- M. apply in_map_iff. exists b. auto.
Qed.

Theorem dhcp_pool_vrf : forall vlans nodes links pid p r,
  dget pid (fst (build_pools make_id addr vlans nodes links)) = Some p ->
  NoDup (map (fun v => vlan_pid make_id (dv_name v)) vlans) ->
  (dp_vrf p = Some r <->
   last_of (link_vrf pid) links r \/ (none_of (link_vrf pid) links /\ last_of (vlan_vrf pid) vlans r)).
Proof.
  intros vlans nodes links pid p r E N. destruct (build_pool_of _ _ _ _ _ E) as [_ [G _]]. rewrite G. clear G E p.
  rewrite (last_fold _ _ _ (fun q l => fst (link_pool make_id addr nodes q l)) (fun ps => dp_vrf (dp_get pid ps)) (link_vrf pid)).
  2:{ intros ps l. now destruct (link_pool_obs nodes ps l pid) as [_ [_ H]]. }
  rewrite (svi_obs _ dp_vrf) by reflexivity.
  rewrite vlan_pools_vrf; auto.
  split; [intros [H|[H1 [H2|[_ H2]]]]|intros [H|[H1 H2]]]; auto. discriminate.
Qed.
End Pools.

Definition ex_make_id (s : string) : string := s.
Definition ex_addr (s : string) : string := substring 0 (String.length s - 3) s.
Definition ex_nodes : dict (list dintf) :=
  [("h1", [di0 "h1" [] [("ipv4", true)] None]);
   ("r1", [di0 "r1" [("ipv4", DvStr "10.0.0.1/24")] [] None;
           mk_di "r1" 2 [("ipv4", DvStr "10.0.1.1/24")] [] None [] None (Some "red") []])]%string.
Definition ex_lan : dlink :=
  mk_dl None "lan" None ["ipv4"%string] [("ipv4"%string, DvStr "10.0.0.0/24")] []
    [di0 "h1" [("ipv4"%string, DvStr "10.0.0.2/24")] [] None; di0 "r1" [("ipv4"%string, DvStr "10.0.0.1/24")] [] None].

Example ex_dhcp_pools :
  build_pools ex_make_id ex_addr [mk_dv "red" false [("ipv4"%string, DvStr "10.0.1.0/24")] [] None] ex_nodes
    [ex_lan; mk_dl (Some "red"%string) "x" None ["ipv4"%string] [("ipv4"%string, DvStr "10.0.1.0/24")] [] []]
  = ([("vlan_red", mk_dp [("ipv4", "10.0.1.0/24")] [] [("ipv4", ["10.0.1.1"])] (Some "vlan_red") None true);
      ("lan", mk_dp [("ipv4", "10.0.0.0/24")] [] [("ipv4", ["10.0.0.1"])] (Some "lan") None true)]%string, []).
Proof. reflexivity. Qed.

(* C94, refuted without the condition: links whose names differ only in punctuation share a pool; the second prefix
   is lost, with an error *)
Definition ex_dash (s : string) : string :=
  (fix go (s : string) := match s with EmptyString => EmptyString | String c r => String (if Ascii.eqb c "-"%char then "_"%char else c) (go r) end) s.

Theorem dhcp_pool_names_refuted : exists l1 l2,
  dl_name l1 <> dl_name l2
  /\ length (fst (build_pools ex_dash ex_addr [] [] [l1; l2])) = 1
  /\ snd (build_pools ex_dash ex_addr [] [] [l1; l2]) <> [].
Proof.
  exists (mk_dl None "lan-a" None ["ipv4"%string] [("ipv4"%string, DvStr "10.0.0.0/24")] [] []),
         (mk_dl None "lan_a" None ["ipv4"%string] [("ipv4"%string, DvStr "10.0.1.0/24")] [] []).
  split; [discriminate|]. split; [reflexivity|discriminate].
Qed.

Print Assumptions dhcp_client_interfaces.
Print Assumptions dhcp_client_effects.
Print Assumptions dhcp_subnets.
Print Assumptions dhcp_irb_client_refuted.
Print Assumptions dhcp_support_exact.
Print Assumptions dhcp_support_reports.
Print Assumptions dhcp_client_addresses.
Print Assumptions dhcp_disabled_client_refuted.
Print Assumptions dhcp_relay_targets.
Print Assumptions dhcp_pool_exists.
Print Assumptions dhcp_pool_excluded.
Print Assumptions dhcp_pool_prefix.
Print Assumptions dhcp_pool_gateway.
Print Assumptions dhcp_pool_name.
Print Assumptions dhcp_pool_vrf.
Print Assumptions dhcp_pool_names_refuted.
