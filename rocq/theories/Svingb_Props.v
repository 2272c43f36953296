(* The neighbors of VLAN interfaces (properties C112, C113). *)
From Coq Require Import String ZArith Lia Bool List.
From Verif Require Import Base Box_Model Box_Props Svi_Model Svi_Props.
Import ListNotations.
Open Scope Z_scope.

(* the last element of a neighbor list for a node *)
Definition entry (l : list vngb) (n : string) (g : vngb) : Prop :=
  exists l1 l2, l = l1 ++ g :: l2 /\ g_node g = n /\ forall h, In h l2 -> g_node h <> n.
(* what a neighbor list has to say about a node with an interface *)
Definition me (n : string) (s : vintf) : vngb := mk_vg n (i_ifname s) (dget "ipv4"%string (i_attr s)) (dget "ipv6"%string (i_attr s)).

Lemma named_true : forall n g, named n g = true <-> g_node g = n.
Proof. intros. unfold named. apply String.eqb_eq. Qed.
Lemma known_true : forall n l, existsb (named n) l = true <-> In n (map g_node l).
Proof.
  intros n l. rewrite existsb_exists, in_map_iff. split; intros [g [A B]]; exists g.
  - apply named_true in B. auto.
  - rewrite named_true. auto.
Qed.
Lemma known_false : forall n l, existsb (named n) l = false <-> ~ In n (map g_node l).
Proof. intros n l. rewrite <- known_true. destruct (existsb (named n) l); intuition congruence. Qed.

Lemma fix_last_names : forall n x l, g_node x = n -> map g_node (fix_last n x l) = map g_node l.
Proof.
  intros n x l E. induction l as [|g r IH]; cbn [fix_last map]; [auto|]. destruct (existsb (named n) r); cbn [map]; [now rewrite IH|].
  destruct (named n g) eqn:N; [|auto]. apply named_true in N. cbn [map]. congruence.
Qed.
Lemma fix_last_entry : forall n x l, g_node x = n -> In n (map g_node l) -> entry (fix_last n x l) n x.
Proof.
  intros n x l E. induction l as [|g r IH]; cbn [fix_last map]; intros I; [destruct I|].
  destruct (existsb (named n) r) eqn:K.
  - apply known_true in K. destruct (IH K) as [l1 [l2 [A B]]]. exists (g :: l1), l2. split; [now rewrite A|auto].
  - apply known_false in K. destruct I as [I|I]; [|contradiction]. apply named_true in I. rewrite I.
    exists [], r. split; [auto|]. split; [auto|]. intros h H X. apply K. rewrite <- X. now apply in_map.
Qed.
Lemma fix_last_other : forall n x l m g, g_node x = n -> m <> n -> entry l m g -> entry (fix_last n x l) m g.
Proof.
  intros n x l m g E D. induction l as [|h r IH]; intros [l1 [l2 [A [B C]]]]; [now destruct l1|].
  cbn [fix_last].
  destruct l1 as [|h1 l1]; cbn [app] in A; injection A as -> ->.
  - assert (Ng : named n g = false) by (destruct (named n g) eqn:N; [apply named_true in N; congruence|auto]).
    rewrite Ng. destruct (existsb (named n) l2).
    + exists [], (fix_last n x l2). split; [auto|]. split; [auto|]. intros h H Q.
      assert (In m (map g_node (fix_last n x l2))) by (rewrite <- Q; now apply in_map).
      rewrite fix_last_names in H0 by auto. apply in_map_iff in H0. destruct H0 as [z [Z1 Z2]]. now apply (C z).
    + exists [], l2. auto.
  - destruct (existsb (named n) (l1 ++ g :: l2)).
    + destruct IH as [a [b [X Y]]]; [exists l1, l2; auto|]. exists (h1 :: a), b. split; [now rewrite X|auto].
    + destruct (named n h1); [exists (x :: l1), l2|exists (h1 :: l1), l2]; auto.
Qed.

Lemma entry_app : forall l r n g, entry l n g -> ~ In n (map g_node r) -> entry (l ++ r) n g.
Proof.
  intros l r n g [l1 [l2 [A [B C]]]] N. exists l1, (l2 ++ r). split; [rewrite A, <- app_assoc; reflexivity|]. split; [auto|].
  intros h H. apply in_app_iff in H. destruct H as [H|H]; [auto|]. intros X. apply N. rewrite <- X. now apply in_map.
Qed.
Lemma entry_name : forall l n g, entry l n g -> In n (map g_node l).
Proof. intros l n g [l1 [l2 [-> [<- _]]]]. rewrite map_app. apply in_app_iff. right. now left. Qed.

Definition fresh (l phy : list vngb) : list vngb := filter (fun g => negb (existsb (named (g_node g)) l)) phy.
Lemma fresh_names : forall l phy m, In m (map g_node (fresh l phy)) <-> In m (map g_node phy) /\ ~ In m (map g_node l).
Proof.
  intros l phy m. unfold fresh. rewrite !in_map_iff. split.
  - intros [g [E H]]. apply filter_In in H. destruct H as [H1 H2]. apply negb_true_iff, known_false in H2. split; [eauto|]. now rewrite E, in_map_iff in H2.
  - intros [[g [E H]] N]. exists g. split; [auto|]. apply filter_In. split; [auto|]. apply negb_true_iff, known_false. now rewrite E, in_map_iff.
Qed.

Lemma update_self : forall l n phy s, entry (update_neighbors l n phy s) n (me n s).
Proof.
  intros l n phy s. unfold update_neighbors. fold (fresh l phy). fold (me n s). destruct (existsb (named n) l) eqn:K.
  - apply known_true in K. apply entry_app; [now apply fix_last_entry|]. rewrite fresh_names. tauto.
  - exists (l ++ fresh l phy), []. split; [auto|]. split; [auto|intros h []].
Qed.
Lemma update_other : forall l n phy s m g, m <> n -> entry l m g -> entry (update_neighbors l n phy s) m g.
Proof.
  intros l n phy s m g D E. unfold update_neighbors. fold (fresh l phy). fold (me n s). pose proof (entry_name _ _ _ E) as I.
  destruct (existsb (named n) l).
  - apply entry_app; [now apply fix_last_other|]. rewrite fresh_names. tauto.
  - apply entry_app; [|intros [X|[]]; cbn in X; congruence]. apply entry_app; [auto|]. rewrite fresh_names. tauto.
Qed.
Lemma update_names : forall l n phy s m, In m (map g_node (update_neighbors l n phy s)) <->
  In m (map g_node l) \/ In m (map g_node phy) \/ m = n.
Proof.
  intros l n phy s m. unfold update_neighbors. fold (fresh l phy). fold (me n s). 
  destruct (in_dec string_dec m (map g_node l)) as [I|I]; destruct (existsb (named n) l) eqn:K.
  - rewrite map_app, in_app_iff, fix_last_names by reflexivity. tauto.
  - rewrite !map_app, !in_app_iff. tauto.
  - apply known_true in K. rewrite map_app, in_app_iff, fix_last_names by reflexivity. rewrite fresh_names.
    split; [tauto|]. intros [X|[X|X]]; [tauto|tauto|]. subst m. contradiction.
  - rewrite !map_app, !in_app_iff, fresh_names. cbn [map In]. split; [|intuition].
    intros [[X|[X _]]|[X|[]]]; auto.
Qed.
Lemma NoDup_map_filter : forall A B (f : A -> B) (p : A -> bool) l, NoDup (map f l) -> NoDup (map f (filter p l)).
Proof.
  intros A B f p l. induction l as [|x r IH]; cbn [map filter]; intros N; [auto|]. inversion N; subst.
  destruct (p x); [|auto]. cbn [map]. constructor; [|auto]. intros X. apply H1. apply in_map_iff in X. destruct X as [y [E Y]].
  apply filter_In in Y. rewrite <- E. apply in_map. tauto.
Qed.
Lemma update_NoDup : forall l n phy s, NoDup (map g_node l) -> NoDup (map g_node phy) -> ~ In n (map g_node phy) ->
  NoDup (map g_node (update_neighbors l n phy s)).
Proof.
  intros l n phy s A B C. unfold update_neighbors. fold (fresh l phy). fold (me n s).
  assert (F : NoDup (map g_node (fresh l phy))) by (now apply NoDup_map_filter).
  destruct (existsb (named n) l) eqn:K.
  - rewrite map_app, fix_last_names by reflexivity. apply NoDup_app_intro; [auto|auto|]. intros m X Y. apply fresh_names in Y. tauto.
  - apply known_false in K. rewrite !map_app. apply NoDup_app_intro.
    + apply NoDup_app_intro; [auto|auto|]. intros m X Y. apply fresh_names in Y. tauto.
    + constructor; [intros []|constructor].
    + intros m X [<-|[]]. cbn [me g_node] in X. apply in_app_iff in X. destruct X as [X|X]; [auto|]. apply fresh_names in X. tauto.
Qed.

Section Node.
Variable svi_fmt : Z -> option Z -> string -> string.
Variable svi_desc : string -> Z -> string.
Variable sub_fmt : vintf -> vintf -> string.
Variable t : vtop.
Variable nd : vnode.
Notation create_svi := (create_svi svi_fmt svi_desc t nd).
Notation update_list := (update_list t nd).
Notation cstep := (cstep svi_fmt svi_desc t nd).
Notation csteps := (csteps svi_fmt svi_desc t nd).
Notation vlan_neighbors := (vlan_neighbors t).

Lemma update_list_get : forall v phy s nl w, vlan_neighbors w (update_list v phy s nl) =
  if String.eqb w v then update_neighbors (vlan_neighbors v nl) (vn_name nd) phy s else vlan_neighbors w nl.
Proof.
  intros v phy s nl w. unfold Svi_Model.update_list, Svi_Model.vlan_neighbors.
  destruct (String.eqb_spec w v) as [->|N].
  - destruct (dmem v (vt_vlans t)) eqn:D; cbn [nl_glob nl_loc]; unfold list_of; now rewrite dget_dset_same.
  - destruct (dmem v (vt_vlans t)) eqn:D; cbn [nl_glob nl_loc]; destruct (dmem w (vt_vlans t)) eqn:E; unfold list_of; rewrite ?dget_dset_other by auto; reflexivity.
Qed.

(* what the ports of a node do to the neighbor list of a VLAN *)
Lemma step_list : forall i r st st' v, cstep i r st st' ->
  (vlan_neighbors v (c_nl st') = vlan_neighbors v (c_nl st) /\ ~ bridged_on i v) \/
  (bridged_on i v /\ exists s, dget v (c_svi st') = Some s /\
     vlan_neighbors v (c_nl st') = update_neighbors (vlan_neighbors v (c_nl st)) (vn_name nd) (i_ngb i) s).
Proof.
  intros i r st st' v A. inversion A; subst; cbn [c_nl c_svi].
  - left. split; [auto|]. intros [U _]. apply port_vlan_uses in U. congruence.
  - left. split; [auto|]. intros [_ [m [M1 M2]]]. destruct H as [_ H]. congruence.
  - rewrite update_list_get. destruct (String.eqb_spec v v0) as [->|N].
    + right. split; [auto|]. exists s. auto.
    + left. split; [auto|]. intros [U _]. destruct H as [U' _]. apply N. now apply (uses_fun i).
  - rewrite update_list_get. destruct (String.eqb_spec v v0) as [->|N].
    + right. split; [auto|]. exists s. split; [|auto]. rewrite dget_app, H1. cbn [dget]. now rewrite String.eqb_refl.
    + left. split; [auto|]. intros [U _]. destruct H as [U' _]. apply N. now apply (uses_fun i).
Qed.
Lemma step_svi : forall i r st st' v s, cstep i r st st' -> dget v (c_svi st) = Some s -> dget v (c_svi st') = Some s.
Proof. intros i r st st' v s A G. inversion A; subst; cbn [c_svi]; auto. rewrite dget_app, G. reflexivity. Qed.
Lemma step_svi_new : forall i r st st' v s, cstep i r st st' -> dget v (c_svi st') = Some s -> dget v (c_svi st) = Some s \/ dget v (c_svi st) = None /\ bridged_on i v.
Proof.
  intros i r st st' v s A G. inversion A; subst; cbn [c_svi] in G; auto. rewrite dget_app in G.
  destruct (dget v (c_svi st)) eqn:E; [auto|]. cbn [dget] in G. destruct (String.eqb_spec v v0) as [->|N]; [auto|discriminate].
Qed.

Record lists_ok (l : list vintf) (nl nl' : nlists) (svi : dict vintf) (v : string) : Prop := mk_lo {
  lo_other : forall m g, m <> vn_name nd -> entry (vlan_neighbors v nl) m g -> entry (vlan_neighbors v nl') m g;
  lo_names : forall m, In m (map g_node (vlan_neighbors v nl')) <->
     In m (map g_node (vlan_neighbors v nl)) \/ exists i, In i l /\ bridged_on i v /\ (In m (map g_node (i_ngb i)) \/ m = vn_name nd);
  lo_dup : NoDup (map g_node (vlan_neighbors v nl)) ->
     (forall i, In i l -> bridged_on i v -> NoDup (map g_node (i_ngb i)) /\ ~ In (vn_name nd) (map g_node (i_ngb i))) ->
     NoDup (map g_node (vlan_neighbors v nl')) }.

Lemma steps_list : forall l st st' v, csteps l st st' ->
  lists_ok l (c_nl st) (c_nl st') (c_svi st') v /\
  ((forall s, dget v (c_svi st) = Some s -> entry (vlan_neighbors v (c_nl st)) (vn_name nd) (me (vn_name nd) s)) ->
   forall s, dget v (c_svi st') = Some s -> entry (vlan_neighbors v (c_nl st')) (vn_name nd) (me (vn_name nd) s)).
Proof.
  intros l st st' v S. induction S as [|i r st st1 st2 A S [[IO IN ID] IE]].
  { split; [|auto]. constructor; [auto| |auto]. intros m. split; [auto|]. intros [X|[i [[] _]]]. auto. }
  destruct (step_list _ _ _ _ v A) as [[E B]|[B [s [G E]]]].
  - split.
    + rewrite E in IO, IN, ID. constructor.
      * auto.
      * intros m. rewrite IN. split.
        -- intros [X|[j [J X]]]; [auto|]. right. exists j. split; [now right|auto].
        -- intros [X|[j [[<-|J] [X Y]]]]; [auto|contradiction|]. right. eauto.
      * intros N H. apply ID; [auto|]. intros j J. apply H. now right.
    + intros F. apply IE. intros s G. rewrite E. apply F.
      destruct (step_svi_new _ _ _ _ _ _ A G) as [X|[_ X]]; [auto|contradiction].
  - split.
    + rewrite E in IO, IN, ID. constructor.
      * intros m g D X. apply IO; [auto|]. now apply update_other.
      * intros m. rewrite IN, update_names. split.
        -- intros [[X|X]|[j [J X]]]; [auto| |].
           ++ right. exists i. split; [now left|auto].
           ++ right. exists j. split; [now right|auto].
        -- intros [X|[j [[<-|J] [X Y]]]]; [auto|auto|]. right. eauto.
      * intros N H. destruct (H i (or_introl eq_refl) B) as [H1 H2]. apply ID; [now apply update_NoDup|]. intros j J. apply H. now right.
    + intros F. apply IE. intros s' G'. rewrite G in G'. injection G' as <-. rewrite E. apply update_self.
Qed.

(* C112: what one node does to the neighbor lists of VLANs *)
Theorem vlan_neighbors_exact : forall l vlans bg nl c v, vn_svi nd = true -> create_svi l (start vlans bg nl) = Some c ->
  (forall m, In m (map g_node (vlan_neighbors v (c_nl c))) <->
     In m (map g_node (vlan_neighbors v nl)) \/ exists i, In i l /\ bridged_on i v /\ (In m (map g_node (i_ngb i)) \/ m = vn_name nd)) /\
  (forall m g, m <> vn_name nd -> entry (vlan_neighbors v nl) m g -> entry (vlan_neighbors v (c_nl c)) m g) /\
  (forall s, dget v (c_svi c) = Some s -> entry (vlan_neighbors v (c_nl c)) (vn_name nd) (me (vn_name nd) s)) /\
  (NoDup (map g_node (vlan_neighbors v nl)) ->
   (forall i, In i l -> bridged_on i v -> NoDup (map g_node (i_ngb i)) /\ ~ In (vn_name nd) (map g_node (i_ngb i))) ->
   NoDup (map g_node (vlan_neighbors v (c_nl c)))).
Proof.
  intros l vlans bg nl c v N H. apply create_svi_steps in H; [|auto]. destruct (steps_list _ _ _ v H) as [[A B C] D].
  split; [exact B|]. split; [exact A|]. split; [|exact C]. apply D. intros s X. discriminate.
Qed.
End Node.

(* ---- cases ---- *)

Example vlan_neighbors_case :
  option_map (fun c => map (fun g => (g_node g, g_ifname g, g_v4 g)) (vlan_neighbors ex_top "red" (c_nl c))) (ex_svi ex_ports) = Some
    [("h1", "eth1", Some (VStr "172.16.0.9/24")); ("s1", "Vlan1000", Some (VStr "172.16.0.1/24")); ("h3", "eth1", Some (VStr "172.16.0.9/24"))]%string /\
  forall i, In i ex_ports -> NoDup (map g_node (i_ngb i)) /\ ~ In "s1"%string (map g_node (i_ngb i)).
Proof.
  split; [vm_compute; reflexivity|]. intros i I. repeat destruct I as [<-|I]; try contradiction; cbn [ex_port i_ngb map ex_ngb g_node];
    (split; [repeat constructor; intros []|intros [X|[]]; discriminate X]).
Qed.

(* A node connected twice to a link: its first entry keeps the name and the address of the physical interface *)
Theorem vlan_neighbors_refuted : exists i c s,
  ex_svi [i] = Some c /\ dget "red"%string (c_svi c) = Some s /\ bridged_on i "red" /\
  exists g, In g (vlan_neighbors ex_top "red" (c_nl c)) /\ g_node g = "s2"%string /\
  exists c2 s2, create_svi ex_fmt ex_desc ex_top (ex_node "s2"%string) [ex_port 1 "red" "irb" "172.16.0.2/24" []] (start [] None (c_nl c)) = Some c2 /\
    dget "red"%string (c_svi c2) = Some s2 /\ In g (vlan_neighbors ex_top "red" (c_nl c2)) /\ g_ifname g <> i_ifname s2.
Proof.
  exists (ex_port 1 "red" "irb" "172.16.0.1/24" [ex_ngb "s2"%string; mk_vg "s2" "eth2" (Some (VStr "172.16.0.10/24"%string)) None]). do 2 eexists.
  split; [vm_compute; reflexivity|]. split; [reflexivity|].
  split; [split; [split; [discriminate|left; reflexivity]|exists "irb"%string; split; [reflexivity|discriminate]]|].
  exists (ex_ngb "s2"%string). split; [left; reflexivity|]. split; [reflexivity|]. do 2 eexists. split; [vm_compute; reflexivity|].
  split; [reflexivity|]. split; [left; reflexivity|discriminate].
Qed.

Print Assumptions vlan_neighbors_exact.
Print Assumptions vlan_neighbors_refuted.
