(* VLAN neighbors in the whole topology: VLAN interfaces of all nodes know each other (property C113). *)
From Coq Require Import String ZArith Lia Bool List.
From Verif Require Import Base Box_Model Box_Props Svi_Model Svi_Props Sviport_Props Svingb_Props.
Import ListNotations.
Open Scope Z_scope.

(* the interfaces before and after the last steps: everything but the ports and subinterfaces keeps its data *)
Definition like (i j : vintf) : Prop :=
  i_type j = i_type i /\ i_vname j = i_vname i /\ p_name (i_vlan j) = p_name (i_vlan i) /\
  (i_type i <> "vlan_member"%string -> i_ifname j = i_ifname i /\ i_attr j = i_attr i /\ p_routed (i_vlan j) = p_routed (i_vlan i)).

Lemma like_refl : forall i, like i i.
Proof. intros i. unfold like. repeat split. Qed.
Lemma like_trans : forall i j k, like i j -> like j k -> like i k.
Proof.
  intros i j k [A1 [A2 [A3 A4]]] [B1 [B2 [B3 B4]]]. unfold like. split; [congruence|]. split; [congruence|]. split; [congruence|].
  intros N. destruct (A4 N) as [X [Y Z]]. destruct B4 as [X' [Y' Z']]; [congruence|]. split; [congruence|]. split; congruence.
Qed.
Lemma Forall2_like_refl : forall l, Forall2 like l l.
Proof. induction l; constructor; auto using like_refl. Qed.
Lemma Forall2_like_trans : forall l1 l2 l3, Forall2 like l1 l2 -> Forall2 like l2 l3 -> Forall2 like l1 l3.
Proof.
  intros l1 l2 l3 F. revert l3. induction F as [|a b r1 r2 H F IH]; intros l3 G; inversion G; subst; constructor; [eapply like_trans; eauto|auto].
Qed.
Lemma like_replace : forall k x l i, nth_error l k = Some i -> like i x -> Forall2 like l (replace k x l).
Proof.
  intros k x l. revert k. induction l as [|y r IH]; intros [|k] i E L; cbn [nth_error replace] in *; try discriminate.
  - injection E as ->. constructor; [auto|apply Forall2_like_refl].
  - constructor; [apply like_refl|eauto].
Qed.
Lemma Forall2_nth_l : forall A B (R : A -> B -> Prop) l l' k b, Forall2 R l l' -> nth_error l' k = Some b -> exists a, nth_error l k = Some a /\ R a b.
Proof.
  intros A B R l l' k b F. revert k. induction F as [|x y r r' H F IH]; intros [|k] E; cbn [nth_error] in *; try discriminate.
  - injection E as <-. eauto.
  - eauto.
Qed.
Lemma Forall2_in_r : forall A B (R : A -> B -> Prop) l l' b, Forall2 R l l' -> In b l' -> exists a, In a l /\ R a b.
Proof.
  intros A B R l l' b F I. apply In_nth_error in I. destruct I as [k I]. destruct (Forall2_nth_l _ _ _ _ _ _ _ F I) as [a [X Y]].
  exists a. split; [eapply nth_error_In; eauto|auto].
Qed.
Lemma set_trunk_like : forall i ids, like i (set_trunk_id i ids).
Proof. intros i ids. unfold like, set_trunk_id. cbn. repeat split. Qed.
Lemma remove_vlan_like : forall i id, like i (remove_vlan i id).
Proof. intros i id. unfold remove_vlan. destruct (filter _ _); apply set_trunk_like. Qed.

Section Node.
Variable svi_fmt : Z -> option Z -> string -> string.
Variable svi_desc : string -> Z -> string.
Variable sub_fmt : vintf -> vintf -> string.
Variable t : vtop.
Variable nd : vnode.
Variable routed_link : option nat -> bool.
Notation create_svi := (create_svi svi_fmt svi_desc t nd).
Notation cstep := (cstep svi_fmt svi_desc t nd).
Notation csteps := (csteps svi_fmt svi_desc t nd).
Notation vlan_neighbors := (vlan_neighbors t).
Notation rename_step := (rename_step sub_fmt t nd).
Notation rename_loop := (rename_loop sub_fmt t nd).
Notation vlan_interfaces := (vlan_interfaces svi_fmt svi_desc sub_fmt t nd).

Lemma trunk_like : forall vlans l l', map_trunk_vlans vlans l = Some l' -> Forall2 like l l'.
Proof.
  intros vlans l. induction l as [|i r IH]; cbn [map_trunk_vlans]; intros l' H; [injection H as <-; constructor|].
  destruct (map_trunk_vlans vlans r) as [r'|]; [|discriminate].
  destruct (p_trunk (i_vlan i)) as [|tr trs]; [injection H as <-; constructor; [apply like_refl|auto]|].
  destruct (vlan_ids vlans (tr :: trs)) as [ids|]; [|discriminate]. injection H as <-. constructor; [apply set_trunk_like|auto].
Qed.

(* one subinterface: who is updated in the neighbor lists *)
Lemma rename_step_facts : forall vlans st k st' v, rename_step vlans routed_link st k = Some st' ->
  Forall2 like (r_ifs st) (r_ifs st') /\
  (forall m g, m <> vn_name nd -> entry (vlan_neighbors v (r_nl st)) m g -> entry (vlan_neighbors v (r_nl st')) m g) /\
  ((forall i, In i (r_ifs st) -> i_type i = "vlan_member"%string -> i_vname i <> Some v) -> vlan_neighbors v (r_nl st') = vlan_neighbors v (r_nl st)).
Proof.
  intros vlans st k st' v H. unfold Svi_Model.rename_step in H.
  assert (Id : Forall2 like (r_ifs st) (r_ifs st)) by apply Forall2_like_refl.
  destruct (nth_error (r_ifs st) k) as [i|] eqn:Ek; [|injection H as <-; auto].
  destruct (String.eqb_spec (i_type i) "vlan_member") as [Ty|Ty]; cbn [negb] in H; [|injection H as <-; auto].
  destruct (negb (vn_router nd)); [injection H as <-; auto|].
  destruct (negb (vn_subif nd)); [discriminate|].
  destruct (i_parent i) as [[parent|]|]; [|injection H as <-; auto|injection H as <-; auto].
  destruct (find_parent i parent (r_ifs st)) as [|j|]; try discriminate.
  destruct (nth_error (r_ifs st) j) as [p0|] eqn:Ej; [|discriminate].
  cbv zeta in H. injection H as <-. cbn [r_ifs r_nl].
  set (p := set_sub p0 (next_sub nd p0)).
  set (p' := match zmem_opt (p_access_id (i_vlan i)) (p_trunk_id (i_vlan p)) with Some a => remove_vlan p a | None => p end).
  set (routed := match i_vname i with Some _ => routed_link (i_link i) | None => false end).
  assert (Lp : like p0 p').
  { assert (like p0 p) by (unfold like, p, set_sub; cbn; repeat split). unfold p'. destruct (zmem_opt _ _); [|auto].
    eapply like_trans; [exact H|apply remove_vlan_like]. }
  assert (Ls : like i (subinterface sub_fmt t p i routed)).
  { unfold like, subinterface. cbn. split; [auto|]. split; [auto|]. split; [auto|]. intros N. contradiction. }
  assert (L1 : Forall2 like (r_ifs st) (replace j p' (r_ifs st))) by (now apply (like_replace _ _ _ p0)).
  assert (R : forall l a b x, nth_error (replace a x l) b = if Nat.eqb a b then (if nth_error l b then Some x else None) else nth_error l b).
  { clear. induction l as [|y r IH]; intros [|a] [|b] x; cbn [replace nth_error Nat.eqb]; auto. now destruct (Nat.eqb a b). }
  split.
  { eapply Forall2_like_trans; [exact L1|]. eapply like_replace.
    - rewrite R. rewrite Ek. instantiate (1 := if Nat.eqb j k then p' else i). now destruct (Nat.eqb j k).
    - destruct (Nat.eqb_spec j k) as [->|D]; [|exact Ls]. rewrite Ek in Ej. injection Ej as <-.
      destruct Lp as [A1 [A2 [A3 A4]]]. destruct Ls as [B1 [B2 [B3 B4]]]. unfold like.
      split; [congruence|]. split; [congruence|]. split; [congruence|]. intros N. congruence. }
  split.
  - intros m g D E. destruct (i_vname i) as [w|]; [|auto]. destruct (routed || _); [auto|].
    rewrite update_list_get. destruct (String.eqb_spec v w) as [->|N]; [|auto]. now apply update_other.
  - intros Q. destruct (i_vname i) as [w|] eqn:Vn; [|auto]. destruct (routed || _); [auto|].
    rewrite update_list_get. destruct (String.eqb_spec v w) as [->|N]; [|auto].
    elim (Q i); [eapply nth_error_In; eauto|auto|auto].
Qed.

Lemma like_members : forall l l' v, Forall2 like l l' ->
  (forall i, In i l -> i_type i = "vlan_member"%string -> i_vname i <> Some v) -> forall i, In i l' -> i_type i = "vlan_member"%string -> i_vname i <> Some v.
Proof.
  intros l l' v F Q i I Ty. destruct (Forall2_in_r _ _ _ _ _ _ F I) as [a [A [L1 [L2 _]]]]. rewrite L2. apply Q; [auto|congruence].
Qed.

Lemma rename_loop_facts : forall vlans ks st st' v, rename_loop vlans routed_link st ks = Some st' ->
  Forall2 like (r_ifs st) (r_ifs st') /\
  (forall m g, m <> vn_name nd -> entry (vlan_neighbors v (r_nl st)) m g -> entry (vlan_neighbors v (r_nl st')) m g) /\
  ((forall i, In i (r_ifs st) -> i_type i = "vlan_member"%string -> i_vname i <> Some v) -> vlan_neighbors v (r_nl st') = vlan_neighbors v (r_nl st)).
Proof.
  intros vlans ks. induction ks as [|k r IH]; intros st st' v H; cbn [Svi_Model.rename_loop] in H.
  { injection H as <-. split; [apply Forall2_like_refl|auto]. }
  destruct (rename_step vlans routed_link st k) as [s1|] eqn:E; [|discriminate].
  destruct (rename_step_facts _ _ _ _ v E) as [A1 [A2 A3]]. destruct (IH _ _ v H) as [B1 [B2 B3]].
  split; [eapply Forall2_like_trans; eauto|]. split; [auto|]. intros Q. rewrite B3; [auto|]. now apply (like_members (r_ifs st)).
Qed.

(* p_name is only set by this code *)
Definition new_names (l : list vintf) : Prop := forall i, In i l -> p_name (i_vlan i) = None.

Lemma done_names : forall l st st', csteps l st st' -> new_names l ->
  (forall j, In j (c_done st) -> i_type j <> "vlan_member"%string -> p_name (i_vlan j) = None) ->
  forall j, In j (c_done st') -> i_type j <> "vlan_member"%string -> p_name (i_vlan j) = None.
Proof.
  intros l st st' S. induction S as [|i r st st1 st2 A S IH]; intros N D; [auto|].
  apply IH; [intros j J; apply N; now right|]. intros j J. specialize (N i (or_introl eq_refl)).
  inversion A; subst; cbn [c_done] in J; apply in_app_iff in J; (destruct J as [J|[<-|[]]]; [auto|intros Ty; auto]).
  unfold routed_port in *. cbn [i_type i_vlan] in *. apply String.eqb_neq in Ty. rewrite Ty. exact N.
Qed.

(* routed subinterfaces for the VLAN *)
Definition no_routed_members (l : list vintf) (v : string) : Prop :=
  forall i, In i l -> i_type i = "vlan_member"%string -> i_vname i = Some v -> exists w, bridged_on i w.

Lemma done_members : forall l st st' v, csteps l st st' -> no_routed_members l v ->
  (forall j, In j (c_done st) -> i_type j = "vlan_member"%string -> i_vname j <> Some v) ->
  forall j, In j (c_done st') -> i_type j = "vlan_member"%string -> i_vname j <> Some v.
Proof.
  intros l st st' v S. induction S as [|i r st st1 st2 A S IH]; intros N D; [auto|].
  apply IH; [intros j J; apply N; now right|]. intros j J. specialize (N i (or_introl eq_refl)).
  inversion A; subst; cbn [c_done] in J; apply in_app_iff in J; (destruct J as [J|[<-|[]]]; [auto|intros Ty]).
  - intros X. destruct (N Ty X) as [w [U _]]. apply port_vlan_uses in U. congruence.
  - cbn [routed_port i_vname] in *. cbn [routed_port i_type] in Ty. intros X. destruct (N Ty X) as [w [_ [m [M1 M2]]]]. destruct H as [_ H]. congruence.
  - cbn [bridged_port i_vname]. discriminate.
  - cbn [bridged_port i_vname]. discriminate.
Qed.

Definition no_member_types (d : dict nvlan) : Prop := forall v x, dget v d = Some x -> nv_type x <> Some "vlan_member"%string.

Lemma svi_types : forall l st st', csteps l st st' -> no_member_types (vt_vlans t) -> no_member_types (c_vlans st) -> no_member_types (c_vlans st').
Proof.
  intros l st st' S Nt. induction S as [|i r st st1 st2 A S IH]; intros N; [auto|]. apply IH.
  assert (K : forall v x vl bg, Svi_Model.create_node_vlan t nd (c_vlans st) (c_bg st) v = Some (x, vl, bg) -> no_member_types vl).
  { intros v x vl bg C. apply create_node_vlan_inv in C. destruct C as [-> [_ [x0 [O D]]]].
    assert (X0 : nv_type x0 <> Some "vlan_member"%string) by (destruct O as [O|[_ [g [G ->]]]]; [eauto|cbn [populated nv_type]; eauto]).
    intros w y G. destruct (String.eqb_spec w v) as [->|Nw].
    - rewrite dget_dset_same in G. injection G as <-. destruct D as [[_ [-> _]]|[_ [b [_ [-> _]]]]]; auto.
    - rewrite dget_dset_other in G by auto. eauto. }
  inversion A; subst; cbn [c_vlans]; eauto.
Qed.

(* the VLAN interface of a VLAN: the one with its name that is not a subinterface *)
Definition svi_of (v : string) (s : vintf) : Prop := p_name (i_vlan s) = Some v /\ i_type s <> "vlan_member"%string.

Lemma node_result : forall vlans nl l r v, vn_svi nd = true -> new_names l -> no_routed_members l v ->
  no_member_types vlans -> no_member_types (vt_vlans t) ->
  vlan_interfaces routed_link vlans None nl l = Some r ->
  (forall m g, m <> vn_name nd -> entry (vlan_neighbors v nl) m g -> entry (vlan_neighbors v (vr_nl r)) m g) /\
  (forall s, In s (vr_ifs r) -> svi_of v s -> entry (vlan_neighbors v (vr_nl r)) (vn_name nd) (me (vn_name nd) s) /\ p_routed (i_vlan s) = false).
Proof.
  intros vlans nl l r v Ns Nn Nm Tv Tt H. unfold Svi_Model.vlan_interfaces in H.
  destruct (create_svi l (mk_cs vlans None [] [] nl [])) as [c|] eqn:C; [|discriminate].
  pose proof C as C0. apply create_svi_steps in C0; [|auto].
  destruct (vlan_neighbors_exact _ _ _ _ _ _ _ _ _ v Ns C) as [_ [Eo [Es _]]].
  destruct (map_trunk_vlans (c_vlans c) (c_done c ++ map snd (c_svi c))) as [l1|] eqn:M; [|discriminate].
  apply trunk_like in M.
  unfold rename_vlan_subinterfaces in H.
  set (l2 := if vn_switch nd then filter _ l1 else l1) in H.
  destruct (rename_loop (c_vlans c) routed_link (mk_rs l2 false (c_nl c) [] []) (seq 0 (length l2))) as [st|] eqn:R; [|discriminate].
  destruct (rename_loop_facts _ _ _ _ v R) as [F1 [F2 F3]]. cbn [r_ifs r_nl] in F1, F2, F3.
  cbn [r_ifs r_nl r_ren r_errs] in H.
  destruct (check_mixed_trunks nd _) as [e|]; [|discriminate]. injection H as <-. cbn [vr_nl vr_ifs].
  assert (S2 : forall i, In i l2 -> In i l1).
  { intros i I. unfold l2 in I. destruct (vn_switch nd); [apply filter_In in I; tauto|auto]. }
  (* VLAN interfaces are not subinterfaces *)
  assert (ND : NoDup (dkeys (c_svi c))) by (apply (one_svi_per_vlan _ _ _ _ _ _ _ _ _ Ns C)).
  assert (TS : forall w s, dget w (c_svi c) = Some s -> i_type s <> "vlan_member"%string /\ p_name (i_vlan s) = Some w /\ p_routed (i_vlan s) = false).
  { intros w s G. destruct (svi_origin _ _ _ _ _ _ _ C0 w s G eq_refl) as [_ [i [_ [x [_ [_ [_ [X Y]]]]]]]]. destruct Y as [Y1 [_ [Y3 _]]].
    split.
    - rewrite Y1. pose proof (svi_types _ _ _ C0 Tt Tv w x X) as T. destruct (nv_type x); [congruence|discriminate].
    - split; [auto|].
      assert (Q : forall l st st', csteps l st st' -> (forall w s, dget w (c_svi st) = Some s -> p_routed (i_vlan s) = false) -> forall w s, dget w (c_svi st') = Some s -> p_routed (i_vlan s) = false).
      { clear. intros l st st' S. induction S as [|i r st st1 st2 A S IH]; intros D; [auto|]. apply IH. intros w s G.
        inversion A; subst; cbn [c_svi] in G; eauto. rewrite dget_app in G. destruct (dget w (c_svi st)) eqn:E; [injection G as <-; eauto|].
        cbn [dget] in G. destruct (String.eqb w v); [|discriminate]. injection G as <-.
        unfold Svi_Model.make_svi in H2. destruct (svi_index _) as [idx e0]. injection H2 as <- _. reflexivity. }
      eapply (Q _ _ _ C0); [|exact G]. intros w' s' X'. discriminate. }
  assert (Mb : forall i, In i l2 -> i_type i = "vlan_member"%string -> i_vname i <> Some v).
  { intros i I. apply S2 in I. destruct (Forall2_in_r _ _ _ _ _ _ M I) as [a [Ia [L1 [L2 _]]]]. rewrite L1, L2.
    apply in_app_iff in Ia. destruct Ia as [Ia|Ia].
    - eapply (done_members _ _ _ v C0); [exact Nm| |exact Ia]. intros j [].
    - intros Ty. apply in_map_iff in Ia. destruct Ia as [[w s] [<- Ia]]. apply dget_NoDup in Ia; [|auto]. elim (proj1 (TS w s Ia)). exact Ty. }
  specialize (F3 Mb).
  split; [intros m g D E; apply F2; [auto|]; now apply Eo|].
  intros s Hs [P1 P2]. apply in_map_iff in Hs. destruct Hs as [[s0 es] [E0 Hs]]. cbn [fst] in E0. subst s0.
  apply in_map_iff in Hs. destruct Hs as [s1 [E1 Hs]].
  assert (L01 : like s1 s).
  { unfold native_cleanup in E1. destruct (i_native s1) as [nv|]; [|injection E1 as <- _; apply like_refl].
    destruct (negb _); injection E1 as <- _; [apply like_refl|]. destruct (dget nv (c_vlans c)) as [x|]; [|apply like_refl].
    destruct (nv_id x =? 0); [apply like_refl|apply remove_vlan_like]. }
  assert (Hs' : In s1 (r_ifs st)) by (destruct (r_loop st); [apply filter_In in Hs; tauto|auto]).
  destruct (Forall2_in_r _ _ _ _ _ _ F1 Hs') as [s2 [I2 L12]]. apply S2 in I2.
  destruct (Forall2_in_r _ _ _ _ _ _ M I2) as [s3 [I3 L23]].
  pose proof (like_trans _ _ _ (like_trans _ _ _ L23 L12) L01) as L. destruct L as [T1 [T2 [T3 T4]]].
  destruct T4 as [T4 [T5 T6]]; [congruence|].
  apply in_app_iff in I3. destruct I3 as [I3|I3].
  { pose proof (done_names _ _ _ C0 Nn (fun j J => match J with end) s3 I3) as X. rewrite X in T3; [|congruence]. congruence. }
  apply in_map_iff in I3. destruct I3 as [[w s4] [E4 I3]]. cbn [snd] in E4. subst s4. apply dget_NoDup in I3; [|auto].
  destruct (TS w s3 I3) as [_ [Q1 Q2]]. assert (w = v) by congruence. subst w. rewrite F3. split; [|congruence].
  specialize (Es s3 I3). unfold me in *. rewrite T4, T5. exact Es.
Qed.
End Node.

Section All.
Variable svi_fmt : vnode -> Z -> option Z -> string -> string.
Variable svi_desc : string -> Z -> string.
Variable sub_fmt : vnode -> vintf -> vintf -> string.
Variable t : vtop.
Variable routed_link : option nat -> bool.
Notation vlan_step := (vlan_step svi_fmt svi_desc sub_fmt t routed_link).
Notation vlan_loop := (vlan_loop svi_fmt svi_desc sub_fmt t routed_link).
Notation post_link_transform := (post_link_transform svi_fmt svi_desc sub_fmt t routed_link).

Definition ngb_only (i j : vintf) : Prop := exists l, j = set_ngb i l.
Lemma ngb_only_refl : forall i, ngb_only i i.
Proof. intros []. eexists. unfold set_ngb. cbn. reflexivity. Qed.

(* the same node apart from the names of neighbor interfaces *)
Definition same_node (n m : pnode) : Prop :=
  pn_on m = pn_on n /\ pn_node m = pn_node n /\ pn_vlans m = pn_vlans n /\ pn_loc m = pn_loc n /\ Forall2 ngb_only (pn_ifs n) (pn_ifs m).
Lemma Forall2_ngb_refl : forall l, Forall2 ngb_only l l.
Proof. induction l; constructor; auto using ngb_only_refl. Qed.
Lemma Forall2_ngb_trans : forall l1 l2 l3, Forall2 ngb_only l1 l2 -> Forall2 ngb_only l2 l3 -> Forall2 ngb_only l1 l3.
Proof.
  intros l1 l2 l3 F. revert l3. induction F as [|a b r1 r2 [x ->] F IH]; intros l3 G; inversion G as [|y z r3 r4 [u ->] Q]; subst; constructor; [exists u; reflexivity|auto].
Qed.
Lemma same_refl : forall n, same_node n n.
Proof. intros n. unfold same_node. do 4 (split; [reflexivity|]). apply Forall2_ngb_refl. Qed.
Lemma same_trans : forall a b c, same_node a b -> same_node b c -> same_node a c.
Proof.
  intros a b c [A1 [A2 [A3 [A4 A5]]]] [B1 [B2 [B3 [B4 B5]]]]. unfold same_node. do 4 (split; [congruence|]). eapply Forall2_ngb_trans; eauto.
Qed.
Lemma rename_ngb_same : forall r n, same_node n (rename_ngb r n).
Proof.
  intros r n. unfold rename_ngb. destruct (String.eqb _ _); [|apply same_refl]. unfold same_node. cbn. do 4 (split; [reflexivity|]).
  induction (pn_ifs n) as [|i l IH]; cbn [map]; constructor; [eexists; reflexivity|auto].
Qed.
Lemma rename_all_same : forall rs n, same_node n (rename_all rs n).
Proof.
  unfold rename_all. induction rs as [|r rs IH]; intros n; cbn [fold_left]; [apply same_refl|].
  eapply same_trans; [apply rename_ngb_same|apply IH].
Qed.

(* a node whose VLAN interface in [v], if any, is the only one in that VLAN *)
Definition ready (v : string) (n : pnode) : Prop :=
  new_names (pn_ifs n) /\ (pn_on n = true -> vn_svi (pn_node n) = true /\ no_routed_members (pn_ifs n) v /\ no_member_types (pn_vlans n)).

Lemma same_ready : forall v n m, same_node n m -> ready v n -> ready v m.
Proof.
  intros v n m [A1 [A2 [A3 [A4 A5]]]] [B1 B2]. split.
  - intros i I. destruct (Forall2_in_r _ _ _ _ _ _ A5 I) as [j [J [l ->]]]. cbn [set_ngb i_vlan]. now apply B1.
  - rewrite A1, A2, A3. intros O. destruct (B2 O) as [C1 [C2 C3]]. split; [auto|]. split; [|auto].
    intros i I. destruct (Forall2_in_r _ _ _ _ _ _ A5 I) as [j [J [l ->]]]. exact (C2 j J).
Qed.

(* the node is in the list of neighbors of the VLAN, with the data of its VLAN interface *)
Definition listed (v : string) (l : list vngb) (n : pnode) : Prop :=
  forall s, In s (pn_ifs n) -> svi_of v s -> entry l (vn_name (pn_node n)) (me (vn_name (pn_node n)) s) /\ p_routed (i_vlan s) = false.
Lemma same_listed : forall v l n m, same_node n m -> listed v l n -> listed v l m.
Proof.
  intros v l n m [A1 [A2 [A3 [A4 A5]]]] L s I Q. destruct (Forall2_in_r _ _ _ _ _ _ A5 I) as [j [J [x ->]]]. rewrite A2.
  exact (L j J Q).
Qed.

Lemma replace_node_nth : forall l a b x, nth_error (replace_node a x l) b = if Nat.eqb a b then (if nth_error l b then Some x else None) else nth_error l b.
Proof. induction l as [|y r IH]; intros [|a] [|b] x; cbn [replace_node nth_error Nat.eqb]; auto. now destruct (Nat.eqb a b). Qed.

Definition inv (v : string) (nodes : list pnode) (k : nat) (st : tstate) : Prop :=
  length (ts_nodes st) = length nodes /\
  (forall j n, nth_error (ts_nodes st) j = Some n ->
     (exists n0, nth_error nodes j = Some n0 /\ pn_on n = pn_on n0 /\ pn_node n = pn_node n0) /\
     ((k <= j)%nat -> ready v n) /\ ((j < k)%nat -> listed v (list_of v (ts_glob st)) n)).

Lemma vlan_step_inv : forall v nodes k st st', dmem v (vt_vlans t) = true -> no_member_types (vt_vlans t) ->
  NoDup (map (fun n => vn_name (pn_node n)) nodes) ->
  inv v nodes k st -> vlan_step st k = Some st' -> inv v nodes (S k) st'.
Proof.
  intros v nodes k st st' Dv Tt ND [IL I] H. unfold Svi_Model.vlan_step in H.
  destruct (nth_error (ts_nodes st) k) as [n|] eqn:En.
  2:{ injection H as <-. split; [auto|]. intros j m Em. destruct (I j m Em) as [A [B C]]. split; [auto|]. split; [intros; apply B; lia|].
      intros L. apply C. destruct (Nat.eq_dec j k) as [->|]; [congruence|lia]. }
  destruct (I k n En) as [[n0 [N1 [N2 N3]]] [Rn _]]. specialize (Rn (le_n k)). 
  destruct (pn_on n) eqn:On; cbn [negb] in H.
  2:{ injection H as <-. split; [auto|]. intros j m Em. destruct (I j m Em) as [A [B C]]. split; [auto|]. split; [intros; apply B; lia|].
      intros L. destruct (Nat.eq_dec j k) as [->|]; [|apply C; lia]. assert (m = n) by congruence. subst m.
      intros s Is [Q _]. destruct Rn as [Rn _]. rewrite (Rn s Is) in Q. discriminate. }
  destruct (Svi_Model.vlan_interfaces _ _ _ _ _ _ _ _ _ _) as [r|] eqn:V; [|discriminate]. injection H as <-. unfold inv. cbn [ts_nodes ts_glob].
  destruct Rn as [Rn1 Rn2]. destruct (Rn2 On) as [R1 [R2 R3]].
  destruct (node_result _ _ _ _ _ _ _ _ _ _ v R1 Rn1 R2 R3 Tt V) as [G1 G2].
  unfold vlan_neighbors in G1, G2. rewrite Dv in G1, G2. cbn [nl_glob] in G1.
  split. { rewrite map_length. rewrite <- IL. clear. generalize (mk_pn true (pn_host n) (pn_node n) (vr_vlans r) (nl_loc (vr_nl r)) (vr_ifs r)).
    revert k. generalize (ts_nodes st). induction l as [|y q IH]; intros [|k] p; cbn [replace_node length]; auto. }
  intros j m Em. rewrite nth_error_map in Em.
  destruct (nth_error (replace_node k _ (ts_nodes st)) j) as [m0|] eqn:E0; [|discriminate]. cbn [option_map] in Em. injection Em as <-.
  pose proof (rename_all_same (vr_ren r) m0) as Sm. rewrite replace_node_nth in E0.
  destruct (Nat.eqb_spec k j) as [<-|D].
  - rewrite En in E0. injection E0 as <-. split.
    + exists n0. split; [auto|]. destruct Sm as [S1 [S2 _]]. cbn [pn_on pn_node] in S1, S2. split; congruence.
    + split; [lia|]. intros _. apply (same_listed _ _ _ _ Sm). intros s Is Q. cbn [pn_ifs pn_node] in *. now apply G2.
  - destruct (I j m0 E0) as [[m1 [M1 [M2 M3]]] [B C]]. split.
    + exists m1. split; [auto|]. destruct Sm as [S1 [S2 _]]. split; congruence.
    + split; [intros L; apply (same_ready _ _ _ Sm); apply B; lia|].
      intros L. apply (same_listed _ _ _ _ Sm). intros s Is Q. destruct (C ltac:(lia) s Is Q) as [C1 C2]. split; [|auto].
      apply G1; [|auto]. intros X. apply D.
      assert (Y : nth_error (map (fun n => vn_name (pn_node n)) nodes) k = nth_error (map (fun n => vn_name (pn_node n)) nodes) j).
      { rewrite !nth_error_map, N1, M1. cbn [option_map]. congruence. }
      apply (proj1 (NoDup_nth_error _) ND); [|exact Y]. rewrite map_length. apply nth_error_Some. congruence.
Qed.

Lemma vlan_loop_inv : forall v nodes d k st st', dmem v (vt_vlans t) = true -> no_member_types (vt_vlans t) ->
  NoDup (map (fun n => vn_name (pn_node n)) nodes) ->
  inv v nodes k st -> vlan_loop st (seq k d) = Some st' -> inv v nodes (k + d) st'.
Proof.
  intros v nodes d. induction d as [|d IH]; intros k st st' Dv Tt ND I H; cbn [seq Svi_Model.vlan_loop] in H.
  { injection H as <-. now rewrite Nat.add_0_r. }
  destruct (vlan_step st k) as [s1|] eqn:E; [|discriminate]. rewrite Nat.add_succ_r, <- Nat.add_succ_l.
  eapply IH; [auto|auto|auto|eapply vlan_step_inv; eauto|exact H].
Qed.

Lemma entry_filter : forall l n g x, g_node g <> x -> entry l n g -> entry (filter (fun h => negb (named x h)) l) n g.
Proof.
  intros l n g x D [l1 [l2 [-> [E F]]]]. rewrite filter_app. cbn [filter].
  assert (N : named x g = false) by (destruct (named x g) eqn:N; [apply named_true in N; contradiction|auto]). rewrite N. cbn [negb].
  eexists _, _. split; [reflexivity|]. split; [auto|]. intros h H. apply filter_In in H. apply F. tauto.
Qed.

(* C113: all nodes with a VLAN interface in a global VLAN are neighbors, with the names and addresses of their VLAN interfaces *)
Theorem svi_neighbors_complete : forall v nodes nodes' errs a b A B sA sB,
  dmem v (vt_vlans t) = true -> no_member_types (vt_vlans t) -> NoDup (map (fun n => vn_name (pn_node n)) nodes) ->
  (forall n, In n nodes -> ready v n) ->
  post_link_transform nodes = Some (nodes', errs) -> nth_error nodes' a = Some A -> nth_error nodes' b = Some B -> a <> b ->
  In sA (pn_ifs A) -> svi_of v sA -> In sB (pn_ifs B) -> svi_of v sB -> i_vname sB = Some v ->
  entry (i_ngb sB) (vn_name (pn_node A)) (me (vn_name (pn_node A)) sA) /\ forall g, In g (i_ngb sB) -> g_node g <> vn_name (pn_node B).
Proof.
  intros v nodes nodes' errs a b A B sA sB Dv Tt ND Rd H Ea Eb Dab IA SA IB SB Vn. unfold Svi_Model.post_link_transform in H.
  destruct (vlan_loop (mk_ts nodes [] []) (seq 0 (length nodes))) as [st|] eqn:L; [|discriminate]. injection H as <- _.
  assert (I : inv v nodes (0 + length nodes) st).
  { eapply vlan_loop_inv; [auto|auto|auto| |exact L]. split; [reflexivity|]. intros j n E. cbn [ts_nodes] in E. split; [eauto|].
    split; [intros _; apply Rd; eapply nth_error_In; eauto|lia]. }
  destruct I as [IL I]. rewrite nth_error_map in Ea, Eb.
  destruct (nth_error (ts_nodes st) a) as [A0|] eqn:Ea0; [|discriminate]. destruct (nth_error (ts_nodes st) b) as [B0|] eqn:Eb0; [|discriminate].
  cbn [option_map] in Ea, Eb. injection Ea as <-. injection Eb as <-. cbn [pn_ifs pn_node] in *.
  destruct (I a A0 Ea0) as [[A1 [X1 [_ X2]]] [_ X3]]. destruct (I b B0 Eb0) as [[B1 [Y1 [_ Y2]]] [_ Y3]].
  assert (La : (a < length nodes)%nat) by (apply nth_error_Some; congruence).
  assert (Lb : (b < length nodes)%nat) by (apply nth_error_Some; congruence).
  specialize (X3 La). specialize (Y3 Lb).
  assert (Dn : vn_name (pn_node A0) <> vn_name (pn_node B0)).
  { intros X. apply Dab. assert (Y : nth_error (map (fun n => vn_name (pn_node n)) nodes) a = nth_error (map (fun n => vn_name (pn_node n)) nodes) b).
    { rewrite !nth_error_map, X1, Y1. cbn [option_map]. congruence. }
    apply (proj1 (NoDup_nth_error _) ND); [|exact Y]. rewrite map_length. exact La. }
  apply in_map_iff in IA. destruct IA as [s0 [<- IA]]. apply in_map_iff in IB. destruct IB as [u0 [<- IB]].
  (* the last step keeps everything but neighbors and role *)
  assert (K : forall n i, p_name (i_vlan (svi_neighbors t (ts_glob st) (ts_nodes st) n i)) = p_name (i_vlan i) /\
    i_type (svi_neighbors t (ts_glob st) (ts_nodes st) n i) = i_type i /\ i_vname (svi_neighbors t (ts_glob st) (ts_nodes st) n i) = i_vname i /\
    forall x, me x (svi_neighbors t (ts_glob st) (ts_nodes st) n i) = me x i).
  { intros n i. unfold svi_neighbors. destruct (i_vname i) as [w|] eqn:W; [|rewrite W; auto]. destruct (p_routed (i_vlan i)); [rewrite W; auto|].
    destruct (vlan_list _ _ _ _ _ _) as [l|]; [|rewrite W; auto].
    destruct (negb _ && _); cbn [i_vlan i_type i_vname set_ngb]; rewrite ?W; (split; [auto|split; [auto|split; [auto|]]]); [|reflexivity].
    intros x. unfold me. cbn [i_ifname i_attr set_ngb]. rewrite !dget_dset_other by discriminate. reflexivity. }
  destruct (K A0 s0) as [KA1 [KA2 [KA3 KA4]]]. destruct (K B0 u0) as [KB1 [KB2 [KB3 _]]].
  unfold svi_of in SA, SB. rewrite KA1, KA2 in SA. rewrite KB1, KB2 in SB. rewrite KB3 in Vn. rewrite KA4.
  destruct (X3 s0 IA SA) as [XA _]. destruct (Y3 u0 IB SB) as [_ YB].
  assert (NB : i_ngb (svi_neighbors t (ts_glob st) (ts_nodes st) B0 u0) =
    filter (fun g => negb (named (vn_name (pn_node B0)) g)) (list_of v (ts_glob st))).
  { unfold svi_neighbors. rewrite Vn, YB. unfold vlan_list. rewrite Dv. destruct (negb _ && _); reflexivity. }
  rewrite NB. split.
  - apply entry_filter; [exact Dn|exact XA].
  - intros g G. apply filter_In in G. destruct G as [_ G]. apply negb_true_iff in G. intros X. apply named_true in X. congruence.
Qed.
End All.

(* ---- cases ---- *)

Definition ex_pn (n addr : string) (ngb : list vngb) : pnode := mk_pn true false (ex_node n) [] [] [ex_port 1 "red" "irb" addr ngb].
Definition ex_host : pnode :=
  mk_pn false true (mk_vnode "h1" None [] None false false false false false None false false) [] []
    [mk_vi 1 "lan" "eth1" (Some 1%nat) None 0%nat None (mk_vp None None None [] None None None false) (Some "red"%string) [mk_vg "s1" "eth1" None None] None None None None None
       [("ipv4"%string, VStr "172.16.0.9/24")]].
Definition ex_nodes : list pnode := [ex_pn "s1" "172.16.0.1/24" [ex_ngb "h1"%string]; ex_pn "s2" "172.16.0.2/24" []; ex_host].
Definition ex_transform := post_link_transform (fun _ => ex_fmt) ex_desc (fun _ _ _ => ""%string) ex_top (fun _ => false).

Example svi_neighbors_case :
  (forall n, In n ex_nodes -> ready "red" n) /\ no_member_types (vt_vlans ex_top) /\ NoDup (map (fun n => vn_name (pn_node n)) ex_nodes) /\
  option_map (fun r => map (fun n => map (fun i => (i_ifname i, map (fun g => (g_node g, g_ifname g, g_v4 g)) (i_ngb i))) (pn_ifs n)) (fst r)) (ex_transform ex_nodes) = Some
   [[("eth1", []); ("Vlan1000", [("h1", "eth1", Some (VStr "172.16.0.9/24")); ("s2", "Vlan1000", Some (VStr "172.16.0.2/24"))])];
    [("eth1", []); ("Vlan1000", [("h1", "eth1", Some (VStr "172.16.0.9/24")); ("s1", "Vlan1000", Some (VStr "172.16.0.1/24"))])];
    [("eth1", [("s1", "Vlan1000", Some (VStr "172.16.0.1/24")); ("s2", "Vlan1000", Some (VStr "172.16.0.2/24"))])]]%string.
Proof.
  split; [|split; [|split; [|vm_compute; reflexivity]]].
  - intros n I. repeat destruct I as [<-|I]; try contradiction; (split; [intros i [<-|[]]; reflexivity|]); intros O; try discriminate O;
      (split; [reflexivity|]; split; [intros i [<-|[]] X; discriminate X|intros v x X; discriminate X]).
  - intros v x G. cbn [ex_top vt_vlans dget] in G. repeat match type of G with (if ?b then _ else _) = _ => destruct b end; try discriminate; injection G as <-; discriminate.
  - cbn. repeat (constructor; [intros X; repeat (destruct X as [X|X]; try discriminate X); contradiction|]). constructor.
Qed.

(* A node with a VLAN interface and a routed subinterface in one VLAN: its neighbors see only the subinterface *)
Definition ex_member : vintf :=
  mk_vi 5 "vlan_member" "" (Some 9%nat) (Some (Some 4%nat)) 0%nat (Some "route"%string) (mk_vp (Some "red"%string) None None [] None None None false)
    (Some "red"%string) [] None None None None None [("ipv4"%string, VStr "172.16.0.77/24")].
Definition ex_trunk : vintf :=
  mk_vi 4 "lan" "eth4" (Some 4%nat) None 0%nat None (mk_vp None None None ["red"]%string None None None false) None [] None None None None None [].
Theorem svi_neighbors_refuted : exists nodes nodes' errs A B sA sB,
  ex_transform nodes = Some (nodes', errs) /\ nth_error nodes' 0 = Some A /\ nth_error nodes' 1 = Some B /\
  NoDup (map (fun n => vn_name (pn_node n)) nodes) /\
  In sA (pn_ifs A) /\ svi_of "red" sA /\ In sB (pn_ifs B) /\ svi_of "red" sB /\ i_vname sB = Some "red"%string /\
  forall g, In g (i_ngb sB) -> g_node g = vn_name (pn_node A) -> g_ifname g <> i_ifname sA.
Proof.
  exists [mk_pn true false (ex_node "s1"%string) [] [] [ex_port 1 "red" "irb" "172.16.0.1/24" []; ex_trunk; ex_member]; ex_pn "s2" "172.16.0.2/24" []].
  do 6 eexists. split; [vm_compute; reflexivity|]. split; [reflexivity|]. split; [reflexivity|].
  split; [cbn; repeat (constructor; [intros X; repeat (destruct X as [X|X]; try discriminate X); contradiction|]); constructor|].
  split; [right; right; right; left; reflexivity|]. split; [split; [reflexivity|discriminate]|].
  split; [right; left; reflexivity|]. split; [split; [reflexivity|discriminate]|]. split; [reflexivity|].
  cbn [i_ngb i_ifname]. intros g G. repeat destruct G as [<-|G]; try contradiction; intros _; discriminate.
Qed.

(* ---- stub VLANs ---- *)

Definition host_entry (nodes : list pnode) (g : vngb) : Prop :=
  exists m, In m nodes /\ vn_name (pn_node m) = g_node g /\ pn_host m = true.

Lemma is_host_iff : forall nodes g, is_host nodes g = true <-> host_entry nodes g.
Proof.
  intros nodes g. unfold is_host. rewrite existsb_exists. split.
  - intros [m [M E]]. apply andb_true_iff in E. destruct E as [E1 E2]. apply String.eqb_eq in E1. exists m. auto.
  - intros [m [M [E1 E2]]]. exists m. split; [auto|]. rewrite E1, E2, String.eqb_refl. reflexivity.
Qed.
Lemma filter_le : forall A (f : A -> bool) l, (length (filter f l) <= length l)%nat.
Proof. intros A f l. induction l as [|x r IH]; cbn [filter length]; [auto|]. destruct (f x); cbn [length]; lia. Qed.
Lemma all_but_none : forall A (f : A -> bool) l, length l = length (filter f l) <-> forall x, In x l -> f x = true.
Proof.
  intros A f l. induction l as [|x r IH]; cbn [filter length]; [split; [intros _ x []|auto]|]. destruct (f x) eqn:F.
  - cbn [length]. split.
    + intros H y [<-|Y]; [auto|]. apply IH; [lia|auto].
    + intros H. f_equal. apply IH. intros y Y. apply H. now right.
  - pose proof (filter_le _ f r). split; [lia|]. intros H0. rewrite (H0 x (or_introl eq_refl)) in F. discriminate.
Qed.
Lemma all_but_one : forall A (f : A -> bool) l, length l = S (length (filter f l)) <->
  exists l1 x l2, l = l1 ++ x :: l2 /\ f x = false /\ forall y, In y (l1 ++ l2) -> f y = true.
Proof.
  intros A f l. induction l as [|x r IH]; cbn [filter length].
  { split; [discriminate|]. intros [[|y l1] [x [l2 [E _]]]]; discriminate E. }
  destruct (f x) eqn:F.
  - cbn [length]. split.
    + intros H. destruct (proj1 IH) as [l1 [y [l2 [-> [Y1 Y2]]]]]; [lia|]. exists (x :: l1), y, l2. split; [auto|]. split; [auto|].
      intros z [<-|Z]; auto.
    + intros [[|z l1] [y [l2 [E [Y1 Y2]]]]]; cbn [app] in E.
      * injection E as <- _. congruence.
      * injection E as <- ->. f_equal. apply IH. exists l1, y, l2. split; [auto|]. split; [auto|]. intros w W. apply Y2. now right.
  - split.
    + intros H. exists [], x, r. split; [auto|]. split; [auto|]. cbn [app]. apply all_but_none. lia.
    + intros [[|z l1] [y [l2 [E [Y1 Y2]]]]]; cbn [app] in E.
      * injection E as <- ->. f_equal. now apply all_but_none.
      * injection E as <- ->. rewrite Y2 in F by (now left). discriminate.
Qed.

(* C113: an interface in a global VLAN is a stub interface exactly when all the nodes of the VLAN but one are hosts *)
Theorem svi_stub_exact : forall t glob nodes n i v, In v (dkeys (vt_vlans t)) -> i_vname i = Some v -> p_routed (i_vlan i) = false ->
  dget "role"%string (i_attr i) = None ->
  let l := list_of v glob in
  (dget "role"%string (i_attr (svi_neighbors t glob nodes n i)) = Some (VStr "stub") <->
     exists l1 g l2, l = l1 ++ g :: l2 /\ ~ host_entry nodes g /\ forall h, In h (l1 ++ l2) -> host_entry nodes h) /\
  (forall x, dget "role"%string (i_attr (svi_neighbors t glob nodes n i)) = Some x -> x = VStr "stub") /\
  (forall k, k <> "role"%string -> dget k (i_attr (svi_neighbors t glob nodes n i)) = dget k (i_attr i)).
Proof.
  intros t glob nodes n i v V Vn Rt Ro l. apply dmem_true in V. unfold svi_neighbors, vlan_list. rewrite Vn, Rt, V. fold l.
  assert (R : dmem "role"%string (i_attr i) = false) by (unfold dmem; now rewrite Ro). rewrite R. cbn [negb andb].
  assert (Q : length l = S (length (filter (is_host nodes) l)) <->
    exists l1 g l2, l = l1 ++ g :: l2 /\ ~ host_entry nodes g /\ forall h, In h (l1 ++ l2) -> host_entry nodes h).
  { rewrite all_but_one. split; intros [l1 [g [l2 [E [A B]]]]]; exists l1, g, l2; (split; [auto|]); split.
    - intros H. apply is_host_iff in H. congruence.
    - intros h H. apply is_host_iff. auto.
    - destruct (is_host nodes g) eqn:G; [|auto]. apply is_host_iff in G. contradiction.
    - intros h H. apply is_host_iff. auto. }
  destruct (Nat.eqb_spec (length l) (S (length (filter (is_host nodes) l)))) as [E|E]; cbn [i_attr set_ngb].
  - rewrite dget_dset_same. split; [rewrite <- Q; tauto|]. split; [congruence|]. intros k K. now apply dget_dset_other.
  - rewrite Ro. split; [rewrite <- Q; split; [discriminate|contradiction]|]. split; [discriminate|auto].
Qed.
Example svi_stub_case :
  option_map (fun r => map (fun n => map (fun i => dget "role"%string (i_attr i)) (pn_ifs n)) (fst r)) (ex_transform [ex_pn "s1" "172.16.0.1/24" [ex_ngb "h1"%string]; ex_host]) =
    Some [[None; Some (VStr "stub")]; [Some (VStr "stub")]] /\
  option_map (fun r => map (fun n => map (fun i => dget "role"%string (i_attr i)) (pn_ifs n)) (fst r)) (ex_transform ex_nodes) =
    Some [[None; None]; [None; None]; [None]].
Proof. split; vm_compute; reflexivity. Qed.

(* ---- renamed subinterfaces ---- *)

Fixpoint new_name (rs : list rename) (peer name : string) : string :=
  match rs with
  | [] => name
  | r :: rest => new_name rest peer (if string_dec (rn_peer r) peer then if string_dec (rn_old r) name then rn_new r else name else name)
  end.

(* C113: renaming a subinterface changes its name in the neighbor lists of the node on the other end and nothing else *)
Theorem neighbor_names_exact : forall rs n,
  (forall r, In r rs -> rn_node r = vn_name (pn_node n)) ->
  Forall2 (fun i i' => set_ngb i [] = set_ngb i' [] /\
    Forall2 (fun g g' => g_node g' = g_node g /\ g_v4 g' = g_v4 g /\ g_v6 g' = g_v6 g /\ g_ifname g' = new_name rs (g_node g) (g_ifname g))
      (i_ngb i) (i_ngb i')) (pn_ifs n) (pn_ifs (rename_all rs n)).
Proof.
  unfold rename_all. induction rs as [|r rs IH]; intros n H; cbn [fold_left].
  - induction (pn_ifs n) as [|i l IHl]; constructor; [|auto]. split; [auto|].
    induction (i_ngb i) as [|g q IHq]; constructor; [|auto]. cbn [new_name]. auto.
  - assert (E : vn_name (pn_node n) = rn_node r) by (symmetry; apply H; now left).
    assert (E2 : pn_node (rename_ngb r n) = pn_node n) by (unfold rename_ngb; destruct (String.eqb _ _); auto).
    specialize (IH (rename_ngb r n)). rewrite E2 in IH. specialize (IH (fun x X => H x (or_intror X))).
    assert (F : pn_ifs (rename_ngb r n) = map (fun i => set_ngb i (map (fun g =>
            if String.eqb (g_node g) (rn_peer r) && String.eqb (g_ifname g) (rn_old r)
            then mk_vg (g_node g) (rn_new r) (g_v4 g) (g_v6 g) else g) (i_ngb i))) (pn_ifs n)).
    { unfold rename_ngb. rewrite E, String.eqb_refl. reflexivity. }
    rewrite F in IH. revert IH. generalize (pn_ifs (fold_left (fun n r => rename_ngb r n) rs (rename_ngb r n))).
    clear F E E2 H. induction (pn_ifs n) as [|i l IHl]; intros l' IH; cbn [map] in IH; inversion IH as [|a b c d [Q1 Q2] Q3]; subst; constructor; [|auto].
    clear IHl IH Q3. split; [exact Q1|]. cbn [set_ngb i_ngb] in Q2. clear Q1. revert Q2. generalize (i_ngb b).
    induction (i_ngb i) as [|g q IHq]; intros q' Q; cbn [map] in Q; inversion Q as [|x y z w [U1 [U2 [U3 U4]]] U5]; subst; constructor; [|auto].
    clear IHq Q U5. cbn [new_name].
    destruct (String.eqb_spec (g_node g) (rn_peer r)) as [P|P]; destruct (String.eqb_spec (g_ifname g) (rn_old r)) as [O|O]; cbn [andb] in *;
      destruct (string_dec (rn_peer r) (g_node g)) as [P'|P']; try congruence;
      try (destruct (string_dec (rn_old r) (g_ifname g)) as [O'|O']; try congruence); cbn [g_node g_v4 g_v6 g_ifname] in *; auto.
Qed.

(* the other nodes are not changed *)
Theorem other_nodes_unrenamed : forall rs n, (forall r, In r rs -> rn_node r <> vn_name (pn_node n)) -> rename_all rs n = n.
Proof.
  unfold rename_all. induction rs as [|r rs IH]; intros n H; cbn [fold_left]; [auto|].
  assert (E : rename_ngb r n = n).
  { unfold rename_ngb. destruct (String.eqb_spec (vn_name (pn_node n)) (rn_node r)) as [E|E]; [|auto].
    exfalso. apply (H r (or_introl eq_refl)). auto. }
  rewrite E. apply IH. intros x X. apply H. now right.
Qed.

Example rename_case :
  map (fun i => map g_ifname (i_ngb i)) (pn_ifs (rename_all [mk_rn "s1" "h1" (g_ifname (ex_ngb "h1"%string)) "eth1.7"] (ex_pn "s1" "172.16.0.1/24" [ex_ngb "h1"%string; ex_ngb "h2"%string])))
    = [["eth1.7"%string; g_ifname (ex_ngb "h2"%string)]].
Proof. vm_compute. reflexivity. Qed.

Print Assumptions svi_neighbors_complete.
Print Assumptions svi_neighbors_refuted.
Print Assumptions svi_stub_exact.
Print Assumptions neighbor_names_exact.
Print Assumptions other_nodes_unrenamed.
