(* Properties of MTU values, host static routes, daemon configuration files, link types and roles, address families
   of nodes and unnumbered interfaces (Nodes_Model). *)
From Coq Require Import String Ascii ZArith Lia Bool List.
From Verif Require Import Base Nodes_Model.
From Verif Require Extra_Model.
Import ListNotations.
Open Scope Z_scope.

(* ================= MTU ================= *)

Definition is_loopback (i : mintf) : Prop := mi_type i = Some "loopback"%string.

(* the MTU the user asked for: interface setting, node setting, lab-wide default *)
Definition wanted (lab node : option Z) (i : mintf) : option Z :=
  match mi_mtu i with
  | Some x => Some x
  | None => match node with Some n => Some n | None => lab end
  end.

(* the MTU a device configured from the transformed data uses *)
Definition effective (f : mtu_features) (lab node : option Z) (i : mintf) : option Z :=
  match mi_mtu i with
  | Some x => Some x
  | None => if mf_system f then match node with Some n => Some n | None => lab end else None
  end.

(* the MTU steps of the whole transformation *)
Definition mtu_transform (f : mtu_features) (v6 : bool) (lab node : option Z) (l : list mintf) :=
  let n := system_mtu_default lab node in
  cleanup_mtu f v6 n (map (add_interface_mtu f n) l).

Definition at_least (m : Z) (limit : option Z) : Prop := forall l, limit = Some l -> l <= m.
Definition at_most (m : Z) (limit : option Z) : Prop := forall l, limit = Some l -> m <= l.

Lemma below_false : forall m o, below m o = false <-> at_least m o.
Proof.
  intros m [l|]; unfold below, at_least; simpl.
  - rewrite Z.ltb_ge. split; intros H; [intros ? E; now injection E as <-|now apply H].
  - split; auto. discriminate.
Qed.

Lemma above_false : forall m o, above m o = false <-> at_most m o.
Proof.
  intros m [l|]; unfold above, at_most; simpl.
  - rewrite Z.ltb_ge. split; intros H; [intros ? E; now injection E as <-|now apply H].
  - split; auto. discriminate.
Qed.

Lemma opt_type_loop : forall i, opt_type_is "loopback" (mi_type i) = true <-> is_loopback i.
Proof.
  intros i. unfold opt_type_is, is_loopback. destruct (mi_type i) as [t|]; [|split; discriminate].
  rewrite String.eqb_eq. split; congruence.
Qed.

Lemma sys_default : forall lab node, system_mtu_default lab node = match node with Some n => Some n | None => lab end.
Proof. intros [m|] [n|]; reflexivity. Qed.

(* the interface after both steps *)
Definition step_spec (f : mtu_features) (sys n : option Z) (i i' : mintf) : Prop :=
  mi_type i' = mi_type i /\ mi_ipv6 i' = mi_ipv6 i
  /\ (is_loopback i -> mi_mtu i' = None)
  /\ (~ is_loopback i ->
      match mi_mtu i' with Some x => Some x | None => sys end
      = match mi_mtu i with Some x => Some x | None => n end).

Lemma step_ok : forall f n k i, n <> Some 0 ->
  step_spec f (if mf_system f then n else None) n i
    (fst (intf_mtu f (if mf_system f then n else None) k (add_interface_mtu f n i))).
Proof.
  intros f n k i N0. unfold step_spec.
  set (sys := if mf_system f then n else None).
  assert (A : mi_type (add_interface_mtu f n i) = mi_type i /\ mi_ipv6 (add_interface_mtu f n i) = mi_ipv6 i
    /\ (is_loopback i -> mi_mtu (add_interface_mtu f n i) = None)
    /\ (~ is_loopback i -> match mi_mtu (add_interface_mtu f n i) with Some x => Some x | None => sys end
      = match mi_mtu i with Some x => Some x | None => n end)).
  { unfold add_interface_mtu.
    set (i1 := match n with Some m => _ | None => i end).
    assert (B : mi_type i1 = mi_type i /\ mi_ipv6 i1 = mi_ipv6 i
      /\ match mi_mtu i1 with Some x => Some x | None => sys end = match mi_mtu i with Some x => Some x | None => n end).
    { unfold i1, sys. destruct n as [m|].
      - destruct (m =? 0) eqn:Z0; [apply Z.eqb_eq in Z0; subst; congruence|].
        destruct (mi_mtu i) as [x|] eqn:M; destruct (mf_system f) eqn:S; simpl.
        + destruct (m =? x) eqn:E; simpl; rewrite ?M; auto. apply Z.eqb_eq in E. subst. auto.
        + rewrite M. auto.
        + rewrite M. auto.
        + auto.
      - destruct (mi_mtu i); destruct (mf_system f); auto. }
    destruct B as [B1 [B2 B3]].
    destruct (opt_type_is "loopback" (mi_type i1)) eqn:L; simpl.
    - rewrite B1 in L. apply opt_type_loop in L. repeat split; auto. intros H. contradiction.
    - repeat split; auto. intros H. apply opt_type_loop in H. rewrite <- B1 in H. congruence. }
  destruct A as [A1 [A2 [A3 A4]]].
  unfold intf_mtu. destruct (mi_mtu (add_interface_mtu f n i)) as [x|] eqn:M; simpl.
  - destruct (match sys with Some m => x =? m | None => false end) eqn:E; simpl.
    + destruct sys as [m|]; [|discriminate]. apply Z.eqb_eq in E. subst m.
      split; [auto|split; [auto|split; [auto|]]]. exact A4.
    + destruct (below x (mf_min_phy f)); simpl; rewrite ?M;
        (split; [auto|split; [auto|split; [auto|exact A4]]]).
  - rewrite M. split; [auto|split; [auto|split; [auto|exact A4]]].
Qed.

Lemma intf_mtus_F2 : forall f sys l k, Forall2 (fun i i' => exists k', i' = fst (intf_mtu f sys k' i)) l
  (fst (intf_mtus f sys k l)).
Proof.
  intros f sys l. induction l as [|i r IH]; intros k; simpl; [constructor|].
  pose proof (IH (S k)) as H. destruct (intf_mtu f sys k i) as [i' e] eqn:E.
  destruct (intf_mtus f sys (S k) r) as [r' es]. simpl in *. constructor; auto.
  exists k. now rewrite E.
Qed.

Lemma cleanup_fst : forall f v6 n l, fst (cleanup_mtu f v6 n l) = fst (intf_mtus f (if mf_system f then n else None) 0%nat l).
Proof. intros. unfold cleanup_mtu. destruct (intf_mtus _ _ _ _). reflexivity. Qed.

Lemma F2_map_l : forall (A B C : Type) (g : A -> B) (R : B -> C -> Prop) l l',
  Forall2 R (map g l) l' -> Forall2 (fun a c => R (g a) c) l l'.
Proof.
  intros A B C g R l. induction l as [|a r IH]; intros l' H; inversion H; subst; constructor; auto.
Qed.

Lemma F2_mono : forall (A B : Type) (P Q : A -> B -> Prop) l l',
  (forall a b, In a l -> P a b -> Q a b) -> Forall2 P l l' -> Forall2 Q l l'.
Proof.
  intros A B P Q l l' H F. induction F as [|a b l l' p F IH]; constructor.
  - apply H; simpl; auto.
  - apply IH. intros. apply H; simpl; auto.
Qed.

(* C85: every interface except a loopback ends up with the requested MTU, wherever it is kept; loopbacks have none *)
Theorem mtu_effective : forall f v6 lab node l,
  lab <> Some 0 -> node <> Some 0 ->
  Forall2 (fun i i' =>
      mi_type i' = mi_type i /\ mi_ipv6 i' = mi_ipv6 i
      /\ (is_loopback i -> mi_mtu i' = None)
      /\ (~ is_loopback i -> effective f lab node i' = wanted lab node i))
    l (fst (mtu_transform f v6 lab node l)).
Proof.
  intros f v6 lab node l L0 N0. unfold mtu_transform. rewrite cleanup_fst, sys_default.
  set (n := match node with Some x => Some x | None => lab end).
  assert (Nz : n <> Some 0) by (unfold n; destruct node; auto).
  eapply F2_mono; [|apply F2_map_l; apply intf_mtus_F2].
  intros i i' _ [k E]. simpl in E. pose proof (step_ok f n k i Nz) as [S1 [S2 [S3 S4]]]. rewrite <- E in *.
  split; [auto|split; [auto|split; [auto|]]].
  intros H. specialize (S4 H). unfold effective, wanted.
  rewrite S4 || (unfold n in S4; destruct (mi_mtu i') as [x|]; destruct (mi_mtu i) as [y|]; auto; exact S4).
Qed.

(* an interface MTU equal to the system MTU is never kept *)
Theorem mtu_no_redundant : forall f v6 lab node l i' m,
  mf_system f = true -> system_mtu_default lab node = Some m ->
  In i' (fst (mtu_transform f v6 lab node l)) -> mi_mtu i' <> Some m.
Proof.
  intros f v6 lab node l i' m S D H M. unfold mtu_transform in H. rewrite cleanup_fst, D, S in H.
  assert (G : forall l0 k, In i' (fst (intf_mtus f (Some m) k l0)) -> mi_mtu i' <> Some m).
  { intros l0. induction l0 as [|i r IH]; intros k; simpl; [tauto|].
    destruct (intf_mtu f (Some m) k i) as [x e] eqn:E. specialize (IH (Datatypes.S k)).
    destruct (intf_mtus f (Some m) (Datatypes.S k) r) as [r' es]. simpl in *.
    intros [Hx|Hr]; [subst x|auto].
    unfold intf_mtu in E. destruct (mi_mtu i) as [y|] eqn:Y.
    - destruct (y =? m) eqn:Q.
      + injection E as <- _. simpl. discriminate.
      + apply Z.eqb_neq in Q. injection E as <- _. destruct (below y (mf_min_phy f)); simpl; rewrite ?Y; congruence.
    - injection E as <- _. congruence. }
  exact (G _ _ H M).
Qed.

(* limits of the system MTU and of an interface MTU *)
Definition node_ok (f : mtu_features) (v6 : bool) (m : Z) : Prop :=
  at_least m (mf_min_phy f) /\ at_least m (mf_min f) /\ (v6 = true -> 1280 <= m) /\ at_most m (mf_max f).

Definition intf_ok (f : mtu_features) (v6 : bool) (x : Z) : Prop :=
  at_least x (mf_min f) /\ (v6 = true -> 1280 <= x) /\ at_most x (mf_max f).

Lemma v6_false : forall b m, b && (m <? 1280) = false <-> (b = true -> 1280 <= m).
Proof.
  intros [|] m; simpl.
  - rewrite Z.ltb_ge. intuition.
  - split; auto. discriminate.
Qed.

Lemma node_errors_nil : forall f v6 m, node_mtu_errors f v6 m = [] <-> node_ok f v6 m.
Proof.
  intros f v6 m. unfold node_mtu_errors, node_ok.
  rewrite <- !below_false, <- above_false, <- v6_false.
  destruct (below m (mf_min_phy f)), (below m (mf_min f)), (v6 && (m <? 1280)), (above m (mf_max f)); simpl;
    split; try discriminate; intuition discriminate.
Qed.

Lemma intf_errors_nil : forall f sys k i, snd (intf_mtu f sys k i) = [] <->
  (forall x, mi_mtu i = Some x -> sys = Some x \/ intf_ok f (mi_ipv6 i) x).
Proof.
  intros f sys k i. unfold intf_mtu. destruct (mi_mtu i) as [x|] eqn:M.
  - destruct (match sys with Some m => x =? m | None => false end) eqn:E; simpl.
    + split; auto. intros _ y Y. injection Y as <-. left. destruct sys; [|discriminate].
      apply Z.eqb_eq in E. now subst.
    + assert (Ns : sys <> Some x).
      { intros ->. now rewrite Z.eqb_refl in E. }
      unfold intf_ok. split.
      * intros H y Y. injection Y as <-. right. rewrite <- below_false, <- above_false, <- v6_false.
        destruct (below x (mf_min f)), (mi_ipv6 i && (x <? 1280)), (above x (mf_max f)); simpl in *;
          try discriminate; auto.
      * intros H. destruct (H x eq_refl) as [H1|H1]; [contradiction|].
        rewrite <- below_false, <- above_false, <- v6_false in H1. destruct H1 as [-> [-> ->]]. reflexivity.
  - simpl. split; auto. discriminate.
Qed.

Lemma app_nil_iff : forall (A : Type) (a b : list A), a ++ b = [] <-> a = [] /\ b = [].
Proof. intros A a b. split; [apply app_eq_nil|intros [-> ->]; reflexivity]. Qed.

Lemma intf_mtus_nil : forall f sys l k, snd (intf_mtus f sys k l) = [] <->
  (forall i, In i l -> forall x, mi_mtu i = Some x -> sys = Some x \/ intf_ok f (mi_ipv6 i) x).
Proof.
  intros f sys l. induction l as [|i r IH]; intros k; simpl; [intuition|].
  pose proof (intf_errors_nil f sys k i) as H1. specialize (IH (S k)).
  destruct (intf_mtu f sys k i) as [i' e]. destruct (intf_mtus f sys (S k) r) as [r' es]. simpl in *.
  rewrite app_nil_iff, H1, IH. split.
  - intros [A B] j [<-|J]; auto.
  - intros H. split; auto.
Qed.

Lemma cleanup_snd : forall f v6 n l, snd (cleanup_mtu f v6 n l) = [] <->
  (forall m, mf_system f = true -> n = Some m -> node_ok f v6 m)
  /\ (forall i, In i l -> forall x, mi_mtu i = Some x ->
        (mf_system f = true /\ n = Some x) \/ intf_ok f (mi_ipv6 i) x).
Proof.
  intros f v6 n l. unfold cleanup_mtu.
  pose proof (intf_mtus_nil f (if mf_system f then n else None) l 0%nat) as H.
  destruct (intf_mtus f (if mf_system f then n else None) 0 l) as [l' es]. simpl in *.
  rewrite app_nil_iff, H. destruct (mf_system f).
  - destruct n as [m|]; [rewrite node_errors_nil|]; split; intros [A B]; split; auto.
    + intros m0 _ E. injection E as <-. auto.
    + intros i I x M. destruct (B i I x M) as [E|E]; auto.
    + intros i I x M. destruct (B i I x M) as [[_ E]|E]; auto.
    + intros m _ E. discriminate.
    + intros i I x M. destruct (B i I x M) as [E|E]; auto.
    + intros i I x M. destruct (B i I x M) as [[_ E]|E]; auto.
  - split; intros [A B]; split; auto.
    + discriminate.
    + intros i I x M. destruct (B i I x M) as [E|E]; [discriminate|auto].
    + intros i I x M. destruct (B i I x M) as [[E _]|E]; [discriminate|auto].
Qed.

Lemma add_mtu : forall f n i, n <> Some 0 ->
  mi_ipv6 (add_interface_mtu f n i) = mi_ipv6 i
  /\ (is_loopback i -> mi_mtu (add_interface_mtu f n i) = None)
  /\ (~ is_loopback i -> forall x, match mi_mtu i with Some y => Some y | None => n end = Some x ->
        mi_mtu (add_interface_mtu f n i) = Some x \/ (mf_system f = true /\ n = Some x))
  /\ (forall x, mi_mtu (add_interface_mtu f n i) = Some x ->
        ~ is_loopback i /\ match mi_mtu i with Some y => Some y | None => n end = Some x).
Proof.
  intros f n i N0. unfold add_interface_mtu.
  set (i1 := match n with Some m => _ | None => i end).
  assert (B : mi_type i1 = mi_type i /\ mi_ipv6 i1 = mi_ipv6 i
    /\ (forall x, match mi_mtu i with Some y => Some y | None => n end = Some x ->
         mi_mtu i1 = Some x \/ (mf_system f = true /\ n = Some x))
    /\ (forall x, mi_mtu i1 = Some x -> match mi_mtu i with Some y => Some y | None => n end = Some x)).
  { unfold i1. destruct n as [m|].
    - destruct (m =? 0) eqn:Z0; [apply Z.eqb_eq in Z0; subst; congruence|].
      destruct (mi_mtu i) as [x|] eqn:M; destruct (mf_system f) eqn:S; simpl.
      + destruct (m =? x) eqn:E; simpl; rewrite ?M.
        * apply Z.eqb_eq in E. subst. split; [auto|split; [auto|split; [intros y Y; injection Y as <-; auto|discriminate]]].
        * repeat split; auto.
      + rewrite M. repeat split; auto.
      + rewrite M. repeat split; auto. discriminate.
      + repeat split; auto.
    - destruct (mi_mtu i); repeat split; auto. }
  destruct B as [B1 [B2 [B3 B4]]].
  destruct (opt_type_is "loopback" (mi_type i1)) eqn:L; simpl.
  - rewrite B1 in L. apply opt_type_loop in L. repeat split; auto; try discriminate. intros H. contradiction.
  - assert (NL : ~ is_loopback i) by (intros H; apply opt_type_loop in H; rewrite <- B1 in H; congruence).
    repeat split; auto. intros H. contradiction.
Qed.

(* C85: the MTU values are accepted exactly when the system MTU and all differing interface MTUs are within limits *)
Theorem mtu_accepted : forall f v6 lab node l,
  lab <> Some 0 -> node <> Some 0 ->
  (snd (mtu_transform f v6 lab node l) = [] <->
   (forall m, mf_system f = true -> system_mtu_default lab node = Some m -> node_ok f v6 m)
   /\ (forall i, In i l -> ~ is_loopback i -> forall x, wanted lab node i = Some x ->
         (mf_system f = true /\ system_mtu_default lab node = Some x) \/ intf_ok f (mi_ipv6 i) x)).
Proof.
  intros f v6 lab node l L0 N0. unfold mtu_transform. rewrite cleanup_snd, sys_default.
  unfold wanted.
  set (n := match node with Some x => Some x | None => lab end).
  assert (Nz : n <> Some 0) by (unfold n; destruct node; auto).
  split; intros [A B]; split; auto.
  - intros i I NL x W. destruct (add_mtu f n i Nz) as [A1 [_ [A3 _]]].
    destruct (A3 NL x W) as [M|M]; auto.
    rewrite <- A1. apply (B (add_interface_mtu f n i)); auto. now apply in_map.
  - intros j J x M. apply in_map_iff in J. destruct J as [i [<- I]].
    destruct (add_mtu f n i Nz) as [A1 [_ [_ A4]]]. destruct (A4 x M) as [NL W].
    rewrite A1. auto.
Qed.

(* C85: with accepted values, every MTU in use is within the limits of the device and at least 1280 with IPv6 *)
Theorem mtu_limits : forall f v6 lab node l i x,
  lab <> Some 0 -> node <> Some 0 ->
  snd (mtu_transform f v6 lab node l) = [] ->
  In i l -> ~ is_loopback i -> (mi_ipv6 i = true -> v6 = true) ->
  wanted lab node i = Some x ->
  at_least x (mf_min f) /\ at_most x (mf_max f) /\ (mi_ipv6 i = true -> 1280 <= x).
Proof.
  intros f v6 lab node l i x L0 N0 E I NL V W. apply mtu_accepted in E; auto. destruct E as [A B].
  destruct (B i I NL x W) as [[S D]|[O1 [O2 O3]]]; auto.
  destruct (A x S D) as [_ [O1 [O2 O3]]]. repeat split; auto.
Qed.

(* C85: the IP MTU flag of an interface without it is set exactly when its own MTU is too low for the hardware, and
   no other MTU is too low for the hardware *)
Theorem mtu_ip_flag : forall f v6 lab node l,
  lab <> Some 0 -> node <> Some 0 ->
  snd (mtu_transform f v6 lab node l) = [] ->
  Forall2 (fun i i' =>
      mi_use_ip i = false ->
      (mi_use_ip i' = true <-> exists x p, mi_mtu i' = Some x /\ mf_min_phy f = Some p /\ x < p)
      /\ (mi_use_ip i' = false -> forall x, effective f lab node i' = Some x -> at_least x (mf_min_phy f)))
    l (fst (mtu_transform f v6 lab node l)).
Proof.
  intros f v6 lab node l L0 N0 E. unfold mtu_transform in *.
  apply cleanup_snd in E. destruct E as [A _]. rewrite cleanup_fst.
  rewrite sys_default in *.
  set (n := match node with Some x => Some x | None => lab end) in *.
  eapply F2_mono; [|apply F2_map_l; apply intf_mtus_F2].
  intros i i' _ [k E] U. simpl in E.
  assert (U1 : mi_use_ip (add_interface_mtu f n i) = false).
  { unfold add_interface_mtu. destruct (opt_type_is _ _); simpl;
    (destruct n as [m|]; [destruct (m =? 0); [|destruct (mi_mtu i); destruct (mf_system f); simpl; try (destruct (m =? _))]|]; exact U). }
  set (j := add_interface_mtu f n i) in *. clearbody j.
  assert (Sys : forall x, mi_mtu i' = None -> effective f lab node i' = Some x -> at_least x (mf_min_phy f)).
  { intros x M Ef. unfold effective in Ef. rewrite M in Ef. destruct (mf_system f); [|discriminate].
    apply (A x eq_refl Ef). }
  unfold intf_mtu in E. destruct (mi_mtu j) as [x|] eqn:M.
  - destruct (match (if mf_system f then n else None) with Some m => x =? m | None => false end) eqn:Q; simpl in E.
    + subst i'. simpl. rewrite U1. split; [split; [discriminate|intros [y [p [H _]]]; discriminate]|].
      intros _ y Ef. apply Sys; auto.
    + destruct (below x (mf_min_phy f)) eqn:Bl; subst i'; simpl.
      * split; [split; auto|discriminate]. intros _. destruct (mf_min_phy f) as [p|] eqn:P; [|discriminate].
        exists x, p. rewrite ?M. repeat split; auto. simpl in Bl. now apply Z.ltb_lt in Bl.
      * rewrite U1. apply below_false in Bl. split.
        -- split; [discriminate|]. intros [y [p [H [P Lt]]]]. rewrite M in H. injection H as <-.
           specialize (Bl p P). lia.
        -- intros _ y Ef. unfold effective in Ef. rewrite M in Ef. injection Ef as <-. exact Bl.
  - simpl in E. subst i'. rewrite U1, M. split; [split; [discriminate|intros [y [p [H _]]]; discriminate]|].
    intros _ y Ef. apply Sys; auto.
Qed.

Definition f_eos := mk_mf true None (Some 68) (Some 9194).
Definition f_csr := mk_mf false (Some 1500) (Some 68) (Some 9216).
Definition f_phy := mk_mf true (Some 1500) (Some 68) (Some 9216).
Definition mi0 (t : option string) (m : option Z) (v6 : bool) := mk_mi t m v6 false.

Example ex_mtu_system :
  mtu_transform f_eos true (Some 9000) (Some 1600)
    [mi0 None (Some 1600) true; mi0 None None true; mi0 None (Some 1400) true; mi0 (Some "loopback"%string) (Some 100) true]
  = ([mi0 None None true; mi0 None None true; mi0 None (Some 1400) true; mi0 (Some "loopback"%string) None true], []).
Proof. reflexivity. Qed.

Example ex_mtu_copy :
  mtu_transform f_csr true (Some 9000) None
    [mi0 None (Some 1400) true; mi0 None None true; mi0 None (Some 1200) true; mi0 None (Some 60) false]
  = ([mk_mi None (Some 1400) true true; mi0 None (Some 9000) true; mk_mi None (Some 1200) true true;
      mk_mi None (Some 60) false true], [IntfBelowV6 2; IntfBelowMin 3]).
Proof. reflexivity. Qed.

Example ex_mtu_phy :
  snd (mtu_transform f_phy false None (Some 1400) [mi0 None (Some 9300) false]) = [NodeBelowPhy; IntfAboveMax 0].
Proof. reflexivity. Qed.

(* ================= address families of a node ================= *)

Definition uses_af (af : string) (n : anode) : Prop := In af (an_loopback n) \/ exists l, In l (an_intf n) /\ In af l.

Lemma fold_af : forall af l d, fold_left (fun d l => if memS af l then dset af true d else d) l d
  = if existsb (memS af) l then dset af true d else d.
Proof.
  intros af l. induction l as [|x r IH]; intros d; simpl; auto.
  destruct (memS af x); simpl; auto.
  rewrite IH. destruct (existsb (memS af) r); auto.
  induction d as [|[k v] q IHd]; simpl; [now rewrite String.eqb_refl|].
  destruct (String.eqb af k) eqn:E; simpl; rewrite E; [reflexivity|]. now rewrite IHd.
Qed.

Lemma set_one_spec : forall af n k, dget k (set_one_af af n) =
  if String.eqb k af && (memS af (an_loopback n) || existsb (memS af) (an_intf n)) then Some true else dget k (an_af n).
Proof.
  intros af n k. unfold set_one_af. rewrite fold_af.
  destruct (String.eqb k af) eqn:E; simpl.
  - apply String.eqb_eq in E. subst k. destruct (memS af (an_loopback n)); simpl.
    + now rewrite dget_dset_same.
    + destruct (existsb (memS af) (an_intf n)); auto. now rewrite dget_dset_same.
  - apply String.eqb_neq in E. destruct (memS af (an_loopback n)); [now rewrite dget_dset_other|].
    destruct (existsb (memS af) (an_intf n)); auto. now rewrite dget_dset_other.
Qed.

Lemma uses_af_b : forall af n, memS af (an_loopback n) || existsb (memS af) (an_intf n) = true <-> uses_af af n.
Proof.
  intros af n. rewrite orb_true_iff, memS_true, existsb_exists. unfold uses_af.
  split; (intros [H|[l [L M]]]; [auto|right; exists l; split; auto; now apply memS_true]).
Qed.

(* C86: a node is marked as an IPv4 (IPv6) node when its loopback or an interface has such an address; nothing else
   changes *)
Theorem node_af_exact : forall n,
  (forall af, af = "ipv4"%string \/ af = "ipv6"%string -> uses_af af n -> dget af (an_af (set_node_af n)) = Some true)
  /\ (forall af, af = "ipv4"%string \/ af = "ipv6"%string -> ~ uses_af af n ->
        dget af (an_af (set_node_af n)) = dget af (an_af n))
  /\ (forall k, k <> "ipv4"%string -> k <> "ipv6"%string -> dget k (an_af (set_node_af n)) = dget k (an_af n))
  /\ an_loopback (set_node_af n) = an_loopback n /\ an_intf (set_node_af n) = an_intf n.
Proof.
  intros n.
  assert (G : forall k, dget k (an_af (set_node_af n)) =
    if String.eqb k "ipv6" && (memS "ipv6" (an_loopback n) || existsb (memS "ipv6") (an_intf n)) then Some true
    else if String.eqb k "ipv4" && (memS "ipv4" (an_loopback n) || existsb (memS "ipv4") (an_intf n)) then Some true
    else dget k (an_af n)).
  { intros k. unfold set_node_af. simpl fold_left. cbn [an_af].
    rewrite set_one_spec. cbn [an_loopback an_intf an_af]. now rewrite set_one_spec. }
  split; [|split; [|split; [|split; reflexivity]]].
  - intros af H U. rewrite G. apply uses_af_b in U. destruct H as [-> | ->]; rewrite U; reflexivity.
  - intros af H U. rewrite G. destruct H as [-> | ->].
    + destruct (memS "ipv4" (an_loopback n) || existsb (memS "ipv4") (an_intf n)) eqn:E.
      * apply uses_af_b in E. contradiction.
      * reflexivity.
    + destruct (memS "ipv6" (an_loopback n) || existsb (memS "ipv6") (an_intf n)) eqn:E.
      * apply uses_af_b in E. contradiction.
      * reflexivity.
  - intros k N4 N6. rewrite G. apply String.eqb_neq in N4, N6. now rewrite N4, N6.
Qed.

Example ex_node_af :
  an_af (set_node_af (mk_an ["ipv4"] [["type"; "ipv6"]; ["ipv6"]] []))%string
  = [("ipv4", true); ("ipv6", true)]%string
  /\ an_af (set_node_af (mk_an [] [["ipv4"]] []))%string = [("ipv4", true)]%string.
Proof. split; reflexivity. Qed.

(* ================= static routes of hosts ================= *)

(* an address family of a host gets static routes *)
Definition client_on (af : string) (i : srv_intf) : bool := negb (si_server i) && memS af (si_client i).

Definition routed_af (dhcp : bool) (n : hnode) (af : string) : bool :=
  negb (String.eqb af "ipv6" && hn_use_ra n)
  && negb (dhcp && negb (hn_server n) && existsb (client_on af) (hn_intf n)).

Definition clients (af : string) (n : hnode) : nat := length (filter (client_on af) (hn_intf n)).

Definition has_static (n : hnode) : Prop := exists r l, hn_static n = Some (r :: l).

Lemma filter_filter : forall (A : Type) (p q : A -> bool) l, filter p (filter q l) = filter (fun x => q x && p x) l.
Proof.
  intros A p q l. induction l as [|x r IH]; simpl; auto.
  destruct (q x); simpl; auto. destruct (p x); simpl; now rewrite IH.
Qed.

Lemma list_remove_spec : forall x l, NoDup l ->
  list_remove x l = if memS x l then Ok (filter (fun y => negb (String.eqb x y)) l) else Err ValueError.
Proof.
  intros x l. induction l as [|y r IH]; intros N; auto.
  inversion N as [|? ? N1 N2]; subst. simpl list_remove.
  assert (M : memS x (y :: r) = String.eqb x y || memS x r) by reflexivity. rewrite M.
  simpl filter. destruct (String.eqb x y) eqn:E.
  - simpl. apply String.eqb_eq in E. subst y. f_equal. symmetry.
    clear - N1. induction r as [|z q IHq]; simpl; auto.
    destruct (String.eqb x z) eqn:E; simpl.
    + apply String.eqb_eq in E. subst. exfalso. apply N1. simpl. auto.
    + f_equal. apply IHq. intros H. apply N1. simpl. auto.
  - simpl. rewrite IH by auto. destruct (memS x r); reflexivity.
Qed.

Definition without (x : string) (l : list string) : list string := filter (fun y => negb (String.eqb x y)) l.

Lemma without_In : forall x y l, In y (without x l) <-> In y l /\ y <> x.
Proof.
  intros x y l. unfold without. rewrite filter_In, negb_true_iff, String.eqb_neq. intuition.
Qed.

Lemma without_absent : forall x l, ~ In x l -> without x l = l.
Proof.
  intros x l H. induction l as [|y r IH]; simpl; auto.
  destruct (String.eqb x y) eqn:E; simpl.
  - apply String.eqb_eq in E. subst. exfalso. apply H. simpl; auto.
  - f_equal. apply IH. intros G. apply H. simpl; auto.
Qed.

Lemma remove_clients_spec : forall af l afs, NoDup afs ->
  remove_clients af l afs =
  match filter (client_on af) l with
  | [] => Ok afs
  | [_] => if memS af afs then Ok (without af afs) else Err ValueError
  | _ => Err ValueError
  end.
Proof.
  intros af l. induction l as [|i r IH]; intros afs N; auto.
  simpl remove_clients. simpl filter. unfold client_on at 1. destruct (si_server i); simpl.
  - apply IH; auto.
  - destruct (memS af (si_client i)); [|apply IH; auto].
    rewrite list_remove_spec by auto. destruct (memS af afs) eqn:M.
    + fold (without af afs). assert (N' : NoDup (without af afs)) by (apply NoDup_filter; auto).
      rewrite IH by auto.
      assert (F : memS af (without af afs) = false) by (apply memS_false; rewrite without_In; intuition).
      rewrite F. destruct (filter (client_on af) r) as [|a [|b q]]; reflexivity.
    + destruct (filter (client_on af) r) as [|a q]; reflexivity.
Qed.

(* the loop over address families; [done] are the families already looked at *)
Lemma remove_dhcp_ok : forall n todo afs, NoDup afs -> NoDup todo -> incl todo afs -> hn_server n = false ->
  (forall af, In af todo -> (clients af n <= 1)%nat) ->
  remove_dhcp n todo afs = Ok (filter (fun y => negb (memS y todo && existsb (client_on y) (hn_intf n))) afs).
Proof.
  intros n todo. induction todo as [|af r IH]; intros afs Na Nt I Sv C.
  - simpl. f_equal. symmetry. clear. induction afs as [|a r IH]; simpl; auto. now rewrite IH.
  - inversion Nt as [|? ? Nt1 Nt2]; subst. simpl remove_dhcp. rewrite Sv.
    rewrite remove_clients_spec by auto.
    assert (Ca : (clients af n <= 1)%nat) by (apply C; simpl; auto). unfold clients in Ca.
    assert (Ma : memS af afs = true) by (apply memS_true; apply I; simpl; auto).
    assert (Ex : existsb (client_on af) (hn_intf n) = match filter (client_on af) (hn_intf n) with [] => false | _ => true end).
    { clear. induction (hn_intf n) as [|i q IH]; simpl; auto. destruct (client_on af i); simpl; auto. }
    destruct (filter (client_on af) (hn_intf n)) as [|a [|b q]] eqn:F.
    + rewrite IH; auto.
      * f_equal. apply filter_ext. intros y.
        assert (M : memS y (af :: r) = String.eqb y af || memS y r) by reflexivity. rewrite M.
        destruct (String.eqb y af) eqn:E; auto. apply String.eqb_eq in E. subst y. rewrite Ex.
        simpl. now rewrite andb_false_r.
      * intros x X. apply I. simpl; auto.
      * intros x X. apply C. simpl; auto.
    + rewrite Ma. rewrite IH; auto.
      * f_equal. unfold without. rewrite filter_filter. apply filter_ext. intros y.
        assert (M : memS y (af :: r) = String.eqb y af || memS y r) by reflexivity. rewrite M.
        rewrite (String.eqb_sym y af). destruct (String.eqb af y) eqn:E.
        -- apply String.eqb_eq in E. subst y. rewrite Ex. reflexivity.
        -- reflexivity.
      * apply NoDup_filter; auto.
      * intros x X. apply without_In. split; [apply I; simpl; auto|intros ->; contradiction].
      * intros x X. apply C. simpl; auto.
    + simpl in Ca. lia.
Qed.

Lemma remove_dhcp_err : forall n todo afs, NoDup afs -> hn_server n = false ->
  (exists af, In af todo /\ (2 <= clients af n)%nat) -> exists e, remove_dhcp n todo afs = Err e.
Proof.
  intros n todo. induction todo as [|af r IH]; intros afs Na Sv [x [X C]]; simpl in X; [tauto|].
  simpl. rewrite Sv, remove_clients_spec by auto.
  destruct (filter (client_on af) (hn_intf n)) as [|a [|b q]] eqn:F; [| |eauto].
  - destruct X as [->|X]; [unfold clients in C; rewrite F in C; simpl in C; lia|]. apply IH; eauto.
  - destruct X as [->|X]; [unfold clients in C; rewrite F in C; simpl in C; lia|].
    destruct (memS af afs); [|eauto]. apply IH; eauto. apply NoDup_filter; auto.
Qed.

Lemma remove_dhcp_server : forall n todo afs, hn_server n = true -> remove_dhcp n todo afs = Ok afs.
Proof. intros n todo. induction todo as [|af r IH]; intros afs H; simpl; auto. rewrite H. auto. Qed.

(* the host that gets a static route table *)
Definition touched (dhcp : bool) (n : hnode) : Prop :=
  hn_host n = true /\ ~ has_static n /\ exists af, In af (hn_af n) /\ routed_af dhcp n af = true.

(* two DHCP client interfaces of one address family *)
Definition double_client (dhcp : bool) (n : hnode) : Prop :=
  dhcp = true /\ hn_host n = true /\ ~ has_static n /\ hn_server n = false
  /\ exists af, In af (hn_af n) /\ (af = "ipv6"%string -> hn_use_ra n = false) /\ (2 <= clients af n)%nat.

Definition with_routes (routes : list sroute) (n : hnode) : hnode :=
  mk_hn (hn_host n) (hn_af n) (hn_use_ra n) (hn_server n) (hn_intf n) (Some routes)
    (if memS "routing" (hn_module n) then hn_module n else hn_module n ++ ["routing"%string]).

Lemma static_b : forall n, (match hn_static n with Some (_ :: _) => true | _ => false end) = true <-> has_static n.
Proof.
  intros n. unfold has_static. destruct (hn_static n) as [[|r l]|]; split; try discriminate.
  - intros [x [y H]]. discriminate.
  - eauto.
  - auto.
  - intros [x [y H]]. discriminate.
Qed.

Lemma host_afs_In : forall n af, In af (host_afs n) <-> In af (hn_af n) /\ (af = "ipv6"%string -> hn_use_ra n = false).
Proof.
  intros n af. unfold host_afs. rewrite filter_In, orb_true_iff, !negb_true_iff, String.eqb_neq.
  split; intros [A B]; split; auto.
  - intros E. destruct B; [contradiction|auto].
  - destruct (string_dec af "ipv6"); auto.
Qed.

Lemma filter_ext_In : forall (A : Type) (p q : A -> bool) l, (forall x, In x l -> p x = q x) -> filter p l = filter q l.
Proof.
  intros A p q l. induction l as [|x r IH]; intros H; simpl; auto.
  rewrite (H x) by (simpl; auto). rewrite IH by (intros; apply H; simpl; auto). reflexivity.
Qed.

Lemma host_af_list : forall dhcp n, NoDup (hn_af n) ->
  hn_host n = true -> ~ has_static n -> ~ double_client dhcp n ->
  (if dhcp then remove_dhcp n (host_afs n) (host_afs n) else Ok (host_afs n))
  = Ok (filter (routed_af dhcp n) (hn_af n)).
Proof.
  intros dhcp n N Hh Hs D. unfold routed_af. destruct dhcp; simpl.
  - destruct (hn_server n) eqn:Sv; simpl.
    + rewrite remove_dhcp_server by auto. f_equal. unfold host_afs. apply filter_ext.
      intros y. destruct (String.eqb y "ipv6"), (hn_use_ra n); reflexivity.
    + rewrite remove_dhcp_ok; auto.
      * f_equal. rewrite (filter_ext_In _ _ (fun y => negb (existsb (client_on y) (hn_intf n))) (host_afs n)).
        -- unfold host_afs. rewrite filter_filter. apply filter_ext. intros y.
           destruct (String.eqb y "ipv6"), (hn_use_ra n); reflexivity.
        -- intros x X. apply memS_true in X. now rewrite X.
      * apply NoDup_filter; auto.
      * apply NoDup_filter; auto.
      * intros x X. exact X.
      * intros af A. apply host_afs_In in A. destruct (le_lt_dec (clients af n) 1) as [L|L]; auto.
        exfalso. apply D. unfold double_client. repeat split; auto. exists af. intuition.
  - f_equal. unfold host_afs. apply filter_ext.
    intros y. destruct (String.eqb y "ipv6"), (hn_use_ra n); reflexivity.
Qed.

Lemma routed_nil : forall dhcp n, filter (routed_af dhcp n) (hn_af n) = [] <->
  ~ exists af, In af (hn_af n) /\ routed_af dhcp n af = true.
Proof.
  intros dhcp n. split.
  - intros E [af H]. apply filter_In in H. rewrite E in H. exact H.
  - intros H. destruct (filter (routed_af dhcp n) (hn_af n)) as [|a r] eqn:E; auto.
    exfalso. apply H. exists a. apply filter_In. rewrite E. simpl; auto.
Qed.

Definition node_routes (sr : list sroute) (dhcp : bool) (n : hnode) : list sroute :=
  flat_map (fun af => filter (fun r => dmem af r) sr) (filter (routed_af dhcp n) (hn_af n)).

Lemma host_static_ok : forall sr dhcp n, NoDup (hn_af n) -> ~ double_client dhcp n ->
  exists n' used, host_static sr dhcp n = Ok (n', used)
  /\ (used = true <-> touched dhcp n)
  /\ (touched dhcp n -> n' = with_routes (node_routes sr dhcp n) n)
  /\ (~ touched dhcp n -> n' = n).
Proof.
  intros sr dhcp n N D. unfold host_static, touched.
  destruct (hn_host n) eqn:H; simpl.
  2:{ exists n, false. split; [auto|]. split; [split; [discriminate|intros [X _]; discriminate]|].
      split; auto. intros [X _]. discriminate. }
  destruct (match hn_static n with Some (_ :: _) => true | _ => false end) eqn:S.
  { apply static_b in S. exists n, false. split; [auto|]. split; [split; [discriminate|intros [_ [X _]]; contradiction]|].
    split; auto. intros [_ [X _]]. contradiction. }
  assert (NS : ~ has_static n) by (intros X; apply static_b in X; congruence).
  rewrite host_af_list by auto.
  pose proof (routed_nil dhcp n) as R. unfold node_routes.
  destruct (filter (routed_af dhcp n) (hn_af n)) as [|a q] eqn:F.
  - exists n, false. split; [auto|].
    assert (Z : ~ exists af, In af (hn_af n) /\ routed_af dhcp n af = true) by (apply R; auto).
    split; [split; [discriminate|intros [_ [_ X]]; contradiction]|].
    split; auto. intros [_ [_ X]]. contradiction.
  - eexists. exists true. split; [reflexivity|].
    assert (T : exists af, In af (hn_af n) /\ routed_af dhcp n af = true).
    { exists a. apply filter_In. rewrite F. simpl; auto. }
    split; [split; auto|]. split.
    + intros _. unfold with_routes, append_to_list. rewrite <- H. reflexivity.
    + intros X. exfalso. apply X. auto.
Qed.

Lemma host_static_err : forall sr dhcp n, NoDup (hn_af n) -> double_client dhcp n ->
  exists e, host_static sr dhcp n = Err e.
Proof.
  intros sr dhcp n N [-> [H [NS [Sv [af [A [B C]]]]]]]. unfold host_static. rewrite H. simpl.
  destruct (match hn_static n with Some (_ :: _) => true | _ => false end) eqn:S.
  { apply static_b in S. contradiction. }
  destruct (remove_dhcp_err n (host_afs n) (host_afs n)) as [e E]; auto.
  - apply NoDup_filter; auto.
  - exists af. split; auto. apply host_afs_In. auto.
  - rewrite E. eauto.
Qed.

Lemma double_dec : forall dhcp n, {double_client dhcp n} + {~ double_client dhcp n}.
Proof.
  intros dhcp n. unfold double_client.
  destruct dhcp; [|right; intros [X _]; discriminate].
  destruct (hn_host n); [|right; intros [_ [X _]]; discriminate].
  destruct (match hn_static n with Some (_ :: _) => true | _ => false end) eqn:S.
  { right. intros [_ [_ [X _]]]. apply X. now apply static_b. }
  assert (NS : ~ has_static n) by (intros X; apply static_b in X; congruence).
  destruct (hn_server n); [right; intros [_ [_ [_ [X _]]]]; discriminate|].
  destruct (existsb (fun af => (negb (String.eqb af "ipv6") || negb (hn_use_ra n)) && (2 <=? clients af n)%nat) (hn_af n)) eqn:E.
  - left. repeat split; auto. apply existsb_exists in E. destruct E as [af [A B]].
    apply andb_true_iff in B. destruct B as [B1 B2]. apply Nat.leb_le in B2. exists af. split; auto. split; auto.
    intros ->. simpl in B1. now apply negb_true_iff in B1.
  - right. intros [_ [_ [_ [_ [af [A [B C]]]]]]]. apply not_true_iff_false in E. apply E.
    apply existsb_exists. exists af. split; auto. apply andb_true_iff. split; [|now apply Nat.leb_le].
    destruct (String.eqb_spec af "ipv6") as [Q|Q]; simpl; auto. now rewrite (B Q).
Qed.

Lemma memS_append : forall x y l, memS x (append_to_list y l) = memS x l || String.eqb x y.
Proof.
  intros x y l. unfold append_to_list. destruct (memS y l) eqn:E.
  - destruct (String.eqb_spec x y) as [->|]; [now rewrite E|now rewrite orb_false_r].
  - unfold memS. rewrite existsb_app. simpl. now rewrite orb_false_r.
Qed.

Lemma host_statics_spec : forall sr l modules, (forall n, In n l -> NoDup (hn_af n)) ->
  let dhcp := memS "dhcp" modules in
  (forall l' m, host_statics sr modules l = Ok (l', m) ->
     (forall n, In n l -> ~ double_client dhcp n)
     /\ Forall2 (fun n n' => (touched dhcp n -> n' = with_routes (node_routes sr dhcp n) n) /\ (~ touched dhcp n -> n' = n)) l l'
     /\ (forall x, In x m <-> In x modules \/ (x = "routing"%string /\ exists n, In n l /\ touched dhcp n)))
  /\ ((forall n, In n l -> ~ double_client dhcp n) -> exists l' m, host_statics sr modules l = Ok (l', m)).
Proof.
  intros sr l. induction l as [|n r IH]; intros modules N dhcp.
  - split.
    + intros l' m E. simpl in E. injection E as <- <-. split; [simpl; tauto|]. split; [constructor|].
      intros x. split; auto. intros [H|[_ [n [[] _]]]]. auto.
    + intros _. simpl. eauto.
  - simpl host_statics. fold dhcp.
    assert (Nn : NoDup (hn_af n)) by (apply N; simpl; auto).
    assert (Nr : forall x, In x r -> NoDup (hn_af x)) by (intros; apply N; simpl; auto).
    destruct (double_dec dhcp n) as [D|D].
    + destruct (host_static_err sr dhcp n Nn D) as [e E]. rewrite E. split; [discriminate|].
      intros H. exfalso. apply (H n); simpl; auto.
    + destruct (host_static_ok sr dhcp n Nn D) as [n' [used [E [U [T1 T2]]]]]. rewrite E.
      set (m1 := if used then append_to_list "routing" modules else modules).
      assert (Dm : memS "dhcp" m1 = dhcp).
      { unfold m1. destruct used; auto. rewrite memS_append. simpl. now rewrite orb_false_r. }
      destruct (IH m1 Nr) as [I1 I2]. simpl in I1, I2. rewrite Dm in I1, I2.
      split.
      * intros l' m H. destruct (host_statics sr m1 r) as [[r' m']|] eqn:R; [|discriminate].
        injection H as <- <-. destruct (I1 r' m' eq_refl) as [A [B C]]. split; [|split].
        -- intros x [<-|X]; auto.
        -- constructor; auto.
        -- intros x. rewrite C. unfold m1. split.
           ++ intros [H|[-> [y [Y T]]]]; [|right; split; auto; exists y; simpl; auto].
              destruct used.
              ** apply memS_true in H. rewrite memS_append in H. apply orb_true_iff in H.
                 rewrite memS_true, String.eqb_eq in H. destruct H as [H|H]; auto.
                 right. split; auto. exists n. simpl. split; auto. now apply U.
              ** auto.
           ++ intros [H|[-> [y [[<-|Y] T]]]].
              ** left. destruct used; auto. apply memS_true. rewrite memS_append. apply orb_true_iff. left. now apply memS_true.
              ** left. apply U in T. subst used. apply memS_true. rewrite memS_append. now rewrite String.eqb_refl, orb_true_r.
              ** right. split; auto. exists y. auto.
      * intros H. destruct I2 as [r' [m' R]]; [intros x X; apply H; simpl; auto|].
        rewrite R. eauto.
Qed.

Definition route_list (global : option (list sroute)) (pools : dict (dict af_value)) : list sroute :=
  match global with Some sr => sr | None => default_static_route_list pools end.

(* C87: hosts without static routes get, for each of their address families that is not configured with DHCP or
   router advertisements, the static routes of that family; other nodes are not changed *)
Theorem host_routes_exact : forall global pools modules l l' m,
  (forall n, In n l -> NoDup (hn_af n)) ->
  add_host_static_routes global pools modules l = Ok (l', m) ->
  let dhcp := memS "dhcp" modules in
  Forall2 (fun n n' =>
    (touched dhcp n -> n' = with_routes (node_routes (route_list global pools) dhcp n) n)
    /\ (~ touched dhcp n -> n' = n)) l l'
  /\ (forall x, In x m <-> In x modules \/ (x = "routing"%string /\ exists n, In n l /\ touched dhcp n)).
Proof.
  intros global pools modules l l' m N E dhcp.
  destruct (host_statics_spec (route_list global pools) l modules N) as [H _].
  destruct (H l' m E) as [_ [A B]]. auto.
Qed.

(* C87: the routes of a host are those of the list with a prefix in one of its routed address families *)
Theorem host_routes_member : forall sr dhcp n r,
  In r (node_routes sr dhcp n) <->
  In r sr /\ exists af, In af (hn_af n) /\ dmem af r = true
    /\ (af = "ipv6"%string -> hn_use_ra n = false)
    /\ (dhcp = true -> hn_server n = false ->
        forall i, In i (hn_intf n) -> si_server i = false -> ~ In af (si_client i)).
Proof.
  intros sr dhcp n r. unfold node_routes. rewrite in_flat_map.
  assert (R : forall af, routed_af dhcp n af = true <->
    (af = "ipv6"%string -> hn_use_ra n = false)
    /\ (dhcp = true -> hn_server n = false ->
        forall i, In i (hn_intf n) -> si_server i = false -> ~ In af (si_client i))).
  { intros af. unfold routed_af. rewrite andb_true_iff, !negb_true_iff. split; intros [A B]; split.
    - intros ->. simpl in A. exact A.
    - intros -> Sv i I Si Cl. rewrite Sv in B. simpl in B. apply not_true_iff_false in B. apply B.
      apply existsb_exists. exists i. split; auto. unfold client_on. rewrite Si. simpl. now apply memS_true.
    - destruct (String.eqb_spec af "ipv6") as [E|E]; simpl; auto.
    - destruct dhcp; simpl; auto. destruct (hn_server n) eqn:Sv; simpl; auto.
      apply not_true_iff_false. intros X. apply existsb_exists in X. destruct X as [i [I C]].
      unfold client_on in C. apply andb_true_iff in C. destruct C as [C1 C2]. apply negb_true_iff in C1.
      apply memS_true in C2. exact (B eq_refl eq_refl i I C1 C2). }
  split.
  - intros [af [A B]]. apply filter_In in A, B. destruct A as [A1 A2]. apply R in A2. destruct B as [B1 B2].
    split; auto. exists af. destruct A2. auto.
  - intros [A [af [B1 [B2 B3]]]]. exists af. split; apply filter_In; auto. split; auto. now apply R.
Qed.

(* C87: the default routes are the prefixes of the address pools, without the management and router-id pools *)
Theorem host_default_routes : forall pools r,
  In r (default_static_route_list pools) <->
  exists name p af s, In (name, p) pools /\ name <> "mgmt"%string /\ name <> "router_id"%string
    /\ (af = "ipv4"%string \/ af = "ipv6"%string) /\ dget af p = Some (AvStr s)
    /\ r = [(af, s); ("_skip_missing", "True"); ("nexthop", "gateway")]%string.
Proof.
  intros pools r. unfold default_static_route_list. rewrite in_flat_map. split.
  - intros [[name p] [P H]]. destruct (memS name ["mgmt"; "router_id"]%string) eqn:M; [destruct H|].
    apply memS_false in M. unfold pool_routes in H. apply in_flat_map in H. destruct H as [af [A B]].
    destruct (dget af p) as [[s|]|] eqn:D; simpl in A, B, M; try contradiction.
    destruct B as [B|[]]. exists name, p, af, s. split; [auto|].
    split; [intros ->; apply M; auto|]. split; [intros ->; apply M; auto|].
    split; [intuition|]. split; auto.
  - intros [name [p [af [s [P [N1 [N2 [A [D ->]]]]]]]]]. exists (name, p). split; auto.
    assert (M : memS name ["mgmt"; "router_id"]%string = false).
    { apply memS_false. simpl. intuition. }
    rewrite M. unfold pool_routes. apply in_flat_map. exists af. split; [simpl; intuition|]. rewrite D. simpl; auto.
Qed.

(* C87, refuted: the function fails exactly when a host has two DHCP client interfaces of one address family *)
Theorem host_routes_crash : forall global pools modules l,
  (forall n, In n l -> NoDup (hn_af n)) ->
  (add_host_static_routes global pools modules l = Err ValueError <->
   exists n, In n l /\ double_client (memS "dhcp" modules) n).
Proof.
  intros global pools modules l N.
  destruct (host_statics_spec (route_list global pools) l modules N) as [H1 H2]. simpl in H1, H2.
  unfold add_host_static_routes. fold (route_list global pools). split.
  - intros E. destruct (existsb (fun n => if double_dec (memS "dhcp" modules) n then true else false) l) eqn:X.
    + apply existsb_exists in X. destruct X as [n [A B]]. exists n. split; auto.
      destruct (double_dec (memS "dhcp" modules) n); auto. discriminate.
    + destruct H2 as [l' [m Q]]; [|congruence]. intros n A D.
      apply not_true_iff_false in X. apply X. apply existsb_exists. exists n. split; auto.
      destruct (double_dec (memS "dhcp" modules) n); auto.
  - intros [n [A D]]. destruct (host_statics (route_list global pools) modules l) as [[l' m]|[]] eqn:E; auto.
    destruct (H1 l' m eq_refl) as [B _]. exfalso. exact (B n A D).
Qed.

Definition h_net4 : sroute := [("ipv4", "172.16.0.0/16"); ("_skip_missing", "True"); ("nexthop", "gateway")]%string.
Definition ex_pools : dict (dict af_value) :=
  [("lan", [("ipv4", AvStr "172.16.0.0/16"); ("prefix", AvOther)]);
   ("mgmt", [("ipv4", AvStr "192.168.121.0/24")]);
   ("p2p", [("ipv4", AvOther); ("ipv6", AvStr "2001:db8::/48")])]%string.
Definition h_host (afs : list string) (ra : bool) (intf : list srv_intf) : hnode :=
  mk_hn true afs ra false intf None [].

Example ex_host_routes :
  add_host_static_routes None ex_pools ["dhcp"]%string
    [h_host ["ipv4"; "ipv6"]%string true [mk_si false []];
     h_host ["ipv4"]%string true [mk_si false ["ipv4"%string]];
     mk_hn false ["ipv4"%string] false false [] None []]
  = Ok ([mk_hn true ["ipv4"; "ipv6"]%string true false [mk_si false []] (Some [h_net4]) ["routing"%string];
         h_host ["ipv4"]%string true [mk_si false ["ipv4"%string]];
         mk_hn false ["ipv4"%string] false false [] None []], ["dhcp"; "routing"]%string).
Proof. reflexivity. Qed.

(* a host with DHCP clients on two links *)
Theorem host_routes_crash_refuted : exists n,
  NoDup (hn_af n)
  /\ add_host_static_routes None ex_pools ["dhcp"%string] [n] = Err ValueError.
Proof.
  exists (h_host ["ipv4"]%string false [mk_si false ["ipv4"%string]; mk_si false ["ipv4"%string]]).
  split; [repeat constructor; simpl; tauto|reflexivity].
Qed.

(* ================= daemon configuration files ================= *)

(* a name written with @ instead of a dot *)
Definition reads_as (k kn : string) : Prop :=
  list_ascii_of_string kn = map (fun c => if Ascii.eqb c "@" then "."%char else c) (list_ascii_of_string k).

Definition used_config (device : string) (module config : list string) (k : string) : Prop :=
  (exists r, k = String "_" r) \/ exists kn, reads_as k kn /\ (kn = device \/ In kn module \/ In kn config).

Lemma reads_as_spec : forall k kn, reads_as k kn <-> kn = replace_char "@" "." k.
Proof.
  intros k kn. unfold reads_as.
  assert (E : list_ascii_of_string (replace_char "@" "." k)
    = map (fun c => if Ascii.eqb c "@" then "."%char else c) (list_ascii_of_string k)).
  { induction k as [|c r IH]; [reflexivity|].
    change (list_ascii_of_string (replace_char "@" "." (String c r)))
      with ((if Ascii.eqb c "@" then "."%char else c) :: list_ascii_of_string (replace_char "@" "." r)).
    rewrite IH. reflexivity. }
  rewrite <- E. split; [|intros ->; reflexivity].
  intros H. rewrite <- (string_of_list_ascii_of_string kn), H. apply string_of_list_ascii_of_string.
Qed.

Lemma starts_spec : forall k, starts_underscore k = true <-> exists r, k = String "_" r.
Proof.
  intros k. split.
  - destruct k as [|a r]; [discriminate|]. intros H. exists r. f_equal.
    destruct a as [[] [] [] [] [] [] [] []]; simpl in H; try discriminate; reflexivity.
  - intros [r ->]. reflexivity.
Qed.

Lemma dpop_get : forall (A : Type) k x (d : dict A), NoDup (map fst d) ->
  dget x (dpop k d) = if String.eqb x k then None else dget x d.
Proof.
  intros A k x d N. destruct (String.eqb_spec x k) as [->|E].
  - now apply dget_dpop_same.
  - now apply dget_dpop_other.
Qed.

Lemma dpop_filter : forall (A : Type) k (d : dict A), NoDup (map fst d) ->
  dpop k d = filter (fun kv => negb (String.eqb k (fst kv))) d.
Proof.
  intros A k d. induction d as [|[x v] r IH]; intros N; auto.
  inversion N as [|? ? N1 N2]; subst. simpl. destruct (String.eqb k x) eqn:E; simpl.
  - apply String.eqb_eq in E. subst x. symmetry. clear -N1. simpl in N1.
    induction r as [|[y w] q IH]; simpl; auto.
    destruct (String.eqb k y) eqn:E; simpl.
    + apply String.eqb_eq in E. subst. exfalso. apply N1. simpl; auto.
    + f_equal. apply IH. intros H. apply N1. simpl; auto.
  - now rewrite IH.
Qed.

(* C88: exactly the mappings in use are kept, in their order and with their values *)
Theorem daemon_config_exact : forall (A : Type) device module config (d : dict A),
  NoDup (map fst d) ->
  (forall k v, In (k, v) (cleanup_daemon_config device module config d) <->
     In (k, v) d /\ used_config device module config k)
  /\ exists keep, cleanup_daemon_config device module config d = filter (fun kv => keep (fst kv)) d.
Proof.
  intros A device module config d N.
  set (keep := fun k => starts_underscore k || (String.eqb (replace_char "@" "." k) device
     || memS (replace_char "@" "." k) module || memS (replace_char "@" "." k) config)).
  assert (K : forall k, keep k = true <-> used_config device module config k).
  { intros k. unfold keep, used_config. rewrite !orb_true_iff, starts_spec, String.eqb_eq, !memS_true. split.
    - intros [H|H]; [auto|]. right. eexists. split; [apply reads_as_spec; reflexivity|tauto].
    - intros [H|[kn [R H]]]; [auto|]. apply reads_as_spec in R. subst kn. tauto. }
  assert (E : cleanup_daemon_config device module config d = filter (fun kv => keep (fst kv)) d).
  { unfold cleanup_daemon_config.
    set (step := fun acc k => if starts_underscore k then acc else
       if String.eqb (replace_char "@" "." k) device || memS (replace_char "@" "." k) module
          || memS (replace_char "@" "." k) config then acc else dpop k acc).
    assert (St : forall acc k, NoDup (map fst acc) -> step acc k = filter (fun kv => negb (negb (keep k) && String.eqb k (fst kv))) acc).
    { intros acc k Na. unfold step, keep. destruct (starts_underscore k); simpl.
      - clear. induction acc as [|a r IH]; simpl; auto. now rewrite <- IH.
      - destruct (_ || _); simpl.
        + clear. induction acc as [|a r IH]; simpl; auto. now rewrite <- IH.
        + now apply dpop_filter. }
    assert (G : forall ks acc, NoDup (map fst acc) ->
      fold_left step ks acc = filter (fun kv => negb (negb (keep (fst kv)) && memS (fst kv) ks)) acc).
    { intros ks. induction ks as [|k r IH]; intros acc Na.
      - simpl. clear. induction acc as [|a r IH]; simpl; auto. rewrite andb_false_r. simpl. now rewrite <- IH.
      - change (fold_left step (k :: r) acc) with (fold_left step r (step acc k)).
        rewrite St by auto. rewrite IH.
        + rewrite filter_filter. apply filter_ext. intros [x v]. cbn [fst].
          assert (M : memS x (k :: r) = String.eqb x k || memS x r) by reflexivity. rewrite M.
          rewrite (String.eqb_sym x k). destruct (String.eqb k x) eqn:Q; simpl.
          * apply String.eqb_eq in Q. subst x. destruct (keep k); simpl; auto.
          * rewrite andb_false_r. reflexivity.
        + clear -Na. induction acc as [|[y w] q IHq]; simpl; auto.
          inversion Na as [|? ? N1 N2]; subst. destruct (negb (negb (keep k) && String.eqb k y)); simpl; auto.
          constructor; auto. intros H. apply N1. apply in_map_iff in H. destruct H as [[a b] [<- F]].
          apply filter_In in F. apply in_map_iff. exists (a, b). tauto. }
    rewrite G by auto. apply filter_ext_In. intros [k v] I.
    assert (M : memS (fst (k, v)) (map fst d) = true) by (apply memS_true; now apply in_map).
    rewrite M, andb_true_r, negb_involutive. reflexivity. }
  split; [|eauto].
  intros k v. rewrite E, filter_In. cbn [fst]. now rewrite K.
Qed.

Example ex_daemon_config :
  cleanup_daemon_config "bird"%string ["bgp"%string] ["extra.cfg"%string]
    [("bird", 1%Z); ("_internal", 2%Z); ("bgp", 3%Z); ("ospf", 4%Z); ("extra@cfg", 5%Z); ("extra.cfg", 6%Z)]%string
  = [("bird", 1%Z); ("_internal", 2%Z); ("bgp", 3%Z); ("extra@cfg", 5%Z); ("extra.cfg", 6%Z)]%string.
Proof. reflexivity. Qed.

(* ================= link types and roles ================= *)

Definition nodes_of (l : tlink) : nat := length (tl_nodes l).
Definition host_on (l : tlink) : Prop := exists n, In n (tl_nodes l) /\ ln_host n = true.
Definition routers (l : tlink) : nat := length (filter (fun n => negb (ln_host n) || ln_daemon n) (tl_nodes l)).

(* a link as written in the topology: nothing has been counted yet *)
Definition fresh (l : tlink) : Prop := tl_count l = None /\ tl_hosts l = 0 /\ tl_routers l = 0.

(* a stub link the user wants to have as a loopback interface *)
Definition to_loopback (def : bool) (l : tlink) : Prop :=
  nodes_of l = 1%nat /\ lb_name (tl_dev l) = true
  /\ (lb_feature (tl_dev l) = Some true \/ (lb_feature (tl_dev l) = None /\ def = true)).

Lemma count_pos : forall p l, (0 < count_nodes p l) <-> exists n, In n l /\ p n = true.
Proof.
  intros p l. unfold count_nodes. split.
  - intros H. destruct (filter p l) as [|n r] eqn:E; [simpl in H; lia|].
    exists n. apply filter_In. rewrite E. simpl; auto.
  - intros [n H]. apply filter_In in H. destruct (filter p l); [destruct H|simpl; lia].
Qed.

Definition lb_bool (def : bool) (l : tlink) : bool :=
  Nat.eqb (nodes_of l) 1 && lb_name (tl_dev l) && match lb_feature (tl_dev l) with Some b => b | None => def end.

Lemma lb_bool_spec : forall def l, lb_bool def l = true <-> to_loopback def l.
Proof.
  intros def l. unfold lb_bool, to_loopback. rewrite !andb_true_iff, Nat.eqb_eq.
  destruct (lb_feature (tl_dev l)) as [b|].
  - split; [intros [[A B] ->]; auto|]. intros [A [B [C|[C _]]]]; [injection C as ->; auto|discriminate].
  - split; [intros [[A B] ->]; auto|]. intros [A [B [C|[_ C]]]]; [discriminate|auto].
Qed.

Lemma type_role_eq : forall def l, fresh l ->
  let h := count_nodes ln_host (tl_nodes l) in
  let hosts := if tl_dhcp l then h + 1 else h in
  let ty := if lb_bool def l then Some "loopback"%string else tl_type l in
  set_link_type_role def l =
  mk_tl (tl_nodes l) (tl_dev l)
    (Some (match ty with Some t => t | None => Extra_Model.get_default_link_type (Z.of_nat (nodes_of l)) hosts end))
    (match tl_role l with
     | Some r => Some r
     | None => if (Z.of_nat (routers l) <=? 1) && negb (opt_type_is "loopback" ty) && negb (tl_vlan l)
               then Some "stub"%string else None
     end)
    (tl_vlan l) (tl_dhcp l) (Some (Z.of_nat (nodes_of l))) hosts 0.
Proof.
  intros def l [F1 [F2 F3]] h hosts ty.
  unfold set_link_type_role, count_link_nodes. rewrite F1. cbn [tl_count].
  rewrite F2, F3. fold h.
  assert (Eh : (if h >? 0 then h else 0) = h).
  { destruct (h >? 0) eqn:E; auto. unfold h, count_nodes in *. rewrite Z.gtb_ltb in E. apply Z.ltb_ge in E. lia. }
  set (r := count_nodes (fun n => negb (ln_host n) || ln_daemon n) (tl_nodes l)).
  assert (Er : (if r >? 0 then r else 0) = Z.of_nat (routers l)).
  { change (Z.of_nat (routers l)) with r. destruct (r >? 0) eqn:E; auto. unfold r, count_nodes in *.
    rewrite Z.gtb_ltb in E. apply Z.ltb_ge in E. lia. }
  rewrite Eh, Er. unfold ty, lb_bool, hosts.
  assert (C : (Z.of_nat (length (tl_nodes l)) =? 1) = Nat.eqb (nodes_of l) 1).
  { unfold nodes_of. destruct (Nat.eqb_spec (length (tl_nodes l)) 1) as [E|E].
    - rewrite E. reflexivity.
    - apply Z.eqb_neq. lia. }
  rewrite C. destruct (Nat.eqb (nodes_of l) 1); simpl; auto.
  unfold set_link_loopback_type. cbn [tl_dev]. destruct (lb_name (tl_dev l)); simpl; auto.
  destruct (lb_feature (tl_dev l)) as [[|]|]; simpl; auto. destruct def; simpl; auto.
Qed.

(* C89: the type of a link *)
Theorem link_type_exact : forall def l, fresh l ->
  let t := tl_type (set_link_type_role def l) in
  (to_loopback def l -> t = Some "loopback"%string)
  /\ (~ to_loopback def l -> forall x, tl_type l = Some x -> t = Some x)
  /\ (~ to_loopback def l -> tl_type l = None ->
      ((2 < nodes_of l)%nat \/ host_on l \/ tl_dhcp l = true -> t = Some "lan"%string)
      /\ ((nodes_of l <= 2)%nat -> ~ host_on l -> tl_dhcp l = false ->
          (nodes_of l = 2%nat -> t = Some "p2p"%string) /\ (nodes_of l <> 2%nat -> t = Some "stub"%string))).
Proof.
  intros def l F t. unfold t. rewrite type_role_eq by auto. cbn [tl_type].
  pose proof (lb_bool_spec def l) as L. destruct (lb_bool def l).
  - split; auto. split; intros H; exfalso; apply H; apply L; auto.
  - split; [intros H; apply L in H; discriminate|]. split; [intros _ x ->; auto|].
    intros _ ->. unfold Extra_Model.get_default_link_type.
    pose proof (count_pos ln_host (tl_nodes l)) as P.
    set (h := count_nodes ln_host (tl_nodes l)) in *.
    assert (Hp : 0 <= h) by (unfold h, count_nodes; lia).
    rewrite Z.gtb_ltb. split.
    + intros H. destruct (2 <? Z.of_nat (nodes_of l)) eqn:E; auto. apply Z.ltb_ge in E.
      assert (Q : (if tl_dhcp l then h + 1 else h) =? 0 = false).
      { apply Z.eqb_neq. destruct H as [H|[H|H]]; [lia| |rewrite H; lia].
        apply P in H. destruct (tl_dhcp l); lia. }
      now rewrite Q.
    + intros N NH D. rewrite D.
      assert (E : (2 <? Z.of_nat (nodes_of l)) = false) by (apply Z.ltb_ge; lia). rewrite E.
      assert (Q : h = 0). { destruct (Z.eq_dec h 0); auto. exfalso. apply NH. apply P. lia. }
      rewrite Q. simpl. split; intros H.
      * rewrite H. reflexivity.
      * assert (X : (Z.of_nat (nodes_of l) =? 2) = false) by (apply Z.eqb_neq; lia). now rewrite X.
Qed.

(* C89: the role of a link *)
Theorem link_role_exact : forall def l, fresh l ->
  let r := tl_role (set_link_type_role def l) in
  (forall x, tl_role l = Some x -> r = Some x)
  /\ (tl_role l = None ->
      (r = Some "stub"%string <-> (routers l <= 1)%nat /\ tl_vlan l = false
          /\ tl_type (set_link_type_role def l) <> Some "loopback"%string)
      /\ (r <> Some "stub"%string -> r = None)).
Proof.
  intros def l F r. unfold r. rewrite type_role_eq by auto. cbn [tl_role tl_type].
  split; [intros x ->; auto|]. intros ->.
  set (ty := if lb_bool def l then Some "loopback"%string else tl_type l).
  set (hosts := if tl_dhcp l then _ else _).
  assert (O : opt_type_is "loopback" ty = true <->
    Some (match ty with Some t => t | None => Extra_Model.get_default_link_type (Z.of_nat (nodes_of l)) hosts end) = Some "loopback"%string).
  { unfold opt_type_is. destruct ty as [t|].
    - rewrite String.eqb_eq. split; congruence.
    - split; [discriminate|]. intros H. exfalso. injection H as H.
      unfold Extra_Model.get_default_link_type in H.
      destruct (_ >? 2); [discriminate|]. destruct (negb _); [discriminate|]. destruct (_ =? 2); discriminate. }
  assert (R : (Z.of_nat (routers l) <=? 1) = true <-> (routers l <= 1)%nat) by (rewrite Z.leb_le; lia).
  destruct (Z.of_nat (routers l) <=? 1), (opt_type_is "loopback" ty), (tl_vlan l); simpl;
    (split; [split|]); intuition; try discriminate; try congruence.
Qed.

(* C89: a link is accepted exactly when its number of nodes suits its type *)
Theorem link_accepted : forall def l, fresh l ->
  (check_link_type (set_link_type_role def l) = None <->
   (1 <= nodes_of l)%nat
   /\ (tl_type (set_link_type_role def l) = Some "stub"%string -> nodes_of l = 1%nat)
   /\ (tl_type (set_link_type_role def l) = Some "p2p"%string -> nodes_of l = 2%nat)
   /\ (tl_type (set_link_type_role def l) = Some "loopback"%string -> nodes_of l = 1%nat)).
Proof.
  intros def l F. unfold check_link_type.
  assert (C : tl_count (set_link_type_role def l) = Some (Z.of_nat (nodes_of l))).
  { rewrite type_role_eq by auto. reflexivity. }
  assert (T : exists t, tl_type (set_link_type_role def l) = Some t).
  { rewrite type_role_eq by auto. cbn [tl_type]. eauto. }
  destruct T as [t T]. rewrite C, T. clear C.
  assert (I : forall x, Some t = Some x <-> t = x) by (intros x; split; congruence). rewrite !I. clear I.
  set (k := nodes_of l). rewrite Z.gtb_ltb.
  destruct (Z.eqb_spec (Z.of_nat k) 0) as [E0|E0].
  { split; [discriminate|]. intros [H _]. lia. }
  destruct (String.eqb_spec t "stub") as [Es|Es]; simpl.
  { subst t. destruct (Z.ltb_spec 1 (Z.of_nat k)); simpl.
    - split; [discriminate|]. intros [_ [H1 _]]. specialize (H1 eq_refl). lia.
    - split; auto. intros _. repeat split; try discriminate; lia. }
  destruct (String.eqb_spec t "p2p") as [Ep|Ep]; simpl.
  { subst t. destruct (Z.eqb_spec (Z.of_nat k) 2); simpl.
    - split; auto. intros _. repeat split; try discriminate; lia.
    - split; [discriminate|]. intros [_ [_ [H1 _]]]. specialize (H1 eq_refl). lia. }
  destruct (String.eqb_spec t "loopback") as [El|El]; simpl.
  { subst t. destruct (Z.eqb_spec (Z.of_nat k) 1); simpl.
    - split; auto. intros _. repeat split; try discriminate; lia.
    - split; [discriminate|]. intros [_ [_ [_ H1]]]. specialize (H1 eq_refl). lia. }
  split; auto. intros _. repeat split; try contradiction. lia.
Qed.

(* C89: a link without an explicit type is only rejected when it has no nodes *)
Theorem link_default_type_accepted : forall def l, fresh l -> tl_type l = None ->
  (check_link_type (set_link_type_role def l) = None <-> tl_nodes l <> []).
Proof.
  intros def l F T. rewrite link_accepted by auto.
  destruct (link_type_exact def l F) as [A [_ B]].
  assert (L : (1 <= nodes_of l)%nat <-> tl_nodes l <> []).
  { unfold nodes_of. destruct (tl_nodes l); simpl; split; intros H; try lia; try congruence; discriminate. }
  rewrite <- L. split; [tauto|]. intros N. split; auto.
  pose proof (lb_bool_spec def l) as Lb. destruct (lb_bool def l).
  - destruct Lb as [Lb _]. specialize (Lb eq_refl). rewrite (A Lb). destruct Lb as [Lb _].
    repeat split; try discriminate; auto.
  - assert (NL : ~ to_loopback def l) by (intros H; apply Lb in H; discriminate).
    destruct (B NL T) as [B1 B2].
    destruct (le_lt_dec (nodes_of l) 2) as [Le|Gt].
    2:{ rewrite B1 by auto. repeat split; discriminate. }
    destruct (existsb ln_host (tl_nodes l)) eqn:X.
    { apply existsb_exists in X. rewrite B1; [repeat split; discriminate|]. right; left. exact X. }
    assert (NH : ~ host_on l).
    { intros [n H]. apply not_true_iff_false in X. apply X. apply existsb_exists. eauto. }
    destruct (tl_dhcp l) eqn:D.
    { rewrite B1 by auto. repeat split; discriminate. }
    destruct (B2 Le NH eq_refl) as [B3 B4].
    destruct (Nat.eq_dec (nodes_of l) 2) as [E|E].
    + rewrite B3 by auto. repeat split; try discriminate; auto.
    + rewrite B4 by auto. repeat split; try discriminate. lia.
Qed.

Definition ex_router := mk_ln false false.
Definition ex_host := mk_ln true false.
Definition ex_dev := mk_lb true None.
Definition ex_link (nodes : list lnode) (ty : option string) : tlink := mk_tl nodes ex_dev ty None false false None 0 0.

Example ex_link_types :
  map (fun l => (tl_type (set_link_type_role false l), tl_role (set_link_type_role false l),
                 check_link_type (set_link_type_role false l)))
    [ex_link [ex_router; ex_router] None; ex_link [ex_router; ex_host] None; ex_link [ex_router] None;
     ex_link [ex_router; ex_router; ex_host] (Some "p2p"%string); ex_link [] None]
  = [(Some "p2p", None, None); (Some "lan", Some "stub", None); (Some "stub", Some "stub", None);
     (Some "p2p", None, Some P2PNodes); (Some "stub", Some "stub", Some NoNodes)]%string.
Proof. reflexivity. Qed.

(* the explicit type of a stub link is replaced when stub links are converted into loopbacks *)
Example ex_link_loopback :
  tl_type (set_link_type_role true (ex_link [ex_router] (Some "lan"%string))) = Some "loopback"%string
  /\ tl_role (set_link_type_role true (ex_link [ex_router] (Some "lan"%string))) = None.
Proof. split; reflexivity. Qed.

(* ================= unnumbered interfaces ================= *)

(* C90: an error is reported for exactly those unnumbered (LLA-only) interfaces the device does not support *)
Theorem unnumbered_checked : forall nodes e,
  In e (interface_feature_check nodes) <->
  exists name f l k i, In (name, f, l) nodes /\ nth_error l k = Some i
    /\ ((e = NoUnnumbered name k /\ fi_v4 i = AdBool true /\ uf_unnum f = false)
        \/ (e = NoLLA name k /\ fi_v6 i = AdBool true /\ uf_lla f = false)).
Proof.
  intros nodes e. unfold interface_feature_check. rewrite in_flat_map.
  assert (T : forall a, is_true_addr a = true <-> a = AdBool true).
  { intros [|[]|]; simpl; split; congruence. }
  assert (G : forall f name l k0, In e (intf_features f name k0 l) <->
    exists k i, nth_error l k = Some i
      /\ ((e = NoUnnumbered name (k0 + k)%nat /\ fi_v4 i = AdBool true /\ uf_unnum f = false)
          \/ (e = NoLLA name (k0 + k)%nat /\ fi_v6 i = AdBool true /\ uf_lla f = false))).
  { intros f name l. induction l as [|i r IH]; intros k0.
    - simpl. split; [tauto|]. intros [k [i [H _]]]. destruct k; discriminate.
    - simpl intf_features. rewrite in_app_iff, IH. unfold intf_feature. rewrite in_app_iff. split.
      + intros [[H|H]|[k [j [H1 H2]]]].
        * destruct (is_true_addr (fi_v4 i)) eqn:A, (uf_unnum f) eqn:B; simpl in H; try tauto.
          destruct H as [<-|[]]. apply T in A. exists 0%nat, i. rewrite Nat.add_0_r. simpl. auto.
        * destruct (is_true_addr (fi_v6 i)) eqn:A, (uf_lla f) eqn:B; simpl in H; try tauto.
          destruct H as [<-|[]]. apply T in A. exists 0%nat, i. rewrite Nat.add_0_r. simpl. auto 6.
        * exists (S k), j. rewrite Nat.add_succ_r. simpl in *. auto.
      + intros [[|k] [j [H1 H2]]].
        * simpl in H1. injection H1 as <-. rewrite Nat.add_0_r in H2. left.
          destruct H2 as [[-> [A B]]|[-> [A B]]]; apply T in A; rewrite A, B; simpl; auto.
        * right. exists k, j. rewrite Nat.add_succ_r in H2. simpl in *. auto. }
  split.
  - intros [[[name f] l] [N H]]. apply G in H. destruct H as [k [i [H1 H2]]].
    exists name, f, l, k, i. auto.
  - intros [name [f [l [k [i [N [H1 H2]]]]]]]. exists (name, f, l). split; auto. apply G. exists k, i. auto.
Qed.

(* C90: an unnumbered IPv4 interface, and no other, gets the name and address of the loopback interface *)
Theorem unnumbered_parent : forall name ip i,
  let i' := set_parent_interface name ip i in
  fi_v4 i' = fi_v4 i /\ fi_v6 i' = fi_v6 i
  /\ (fi_v4 i <> AdBool true -> i' = i)
  /\ (fi_v4 i = AdBool true -> forall n, n <> ""%string -> name = Some n -> fi_parent i' = Some n)
  /\ (fi_v4 i = AdBool true -> forall a, a <> ""%string -> ip = Some a -> fi_parent4 i' = Some a)
  /\ (fi_v4 i = AdBool true -> name = None -> fi_parent i' = fi_parent i)
  /\ (fi_v4 i = AdBool true -> ip = None -> fi_parent4 i' = fi_parent4 i).
Proof.
  intros name ip i i'. unfold i', set_parent_interface.
  destruct (fi_v4 i) as [|[|]|s] eqn:V; simpl; rewrite ?V;
    repeat split; auto; try discriminate; try congruence.
  - intros _ n N ->. unfold truthy_str. destruct n; congruence.
  - intros _ a N ->. unfold truthy_str. destruct a; congruence.
  - intros _ ->. reflexivity.
  - intros _ ->. reflexivity.
Qed.

Example ex_unnumbered :
  interface_feature_check
    [("r1", mk_uf false true, [mk_fi (AdStr "10.0.0.1/30") (AdBool true) None None; mk_fi (AdBool true) AdNone None None]);
     ("r2", mk_uf true false, [mk_fi (AdBool true) (AdBool true) None None])]%string
  = [NoUnnumbered "r1" 1; NoLLA "r2" 0]
  /\ set_parent_interface (Some "Loopback0"%string) (Some "10.0.0.1/32"%string) (mk_fi (AdBool true) AdNone None None)
     = mk_fi (AdBool true) AdNone (Some "Loopback0"%string) (Some "10.0.0.1/32"%string).
Proof. split; reflexivity. Qed.

(* ================= interface descriptions ================= *)

Lemma length_append : forall a b, String.length (a ++ b) = (String.length a + String.length b)%nat.
Proof. intros a b. induction a as [|c r IH]; simpl; auto. Qed.

Lemma length_substring : forall n s, (String.length (substring 0 n s) <= n)%nat.
Proof.
  intros n. induction n as [|n IH]; intros s; destruct s as [|c r]; simpl; try lia.
  specialize (IH r). lia.
Qed.

(* C90: descriptions of interfaces on multi-access links fit within the limit *)
Theorem ifname_length : forall maxn maxlen p2p node ngb,
  (3 <= maxlen)%nat -> (2 <= length ngb)%nat ->
  (String.length (create_ifname maxn maxlen p2p node ngb) <= maxlen)%nat.
Proof.
  intros maxn maxlen p2p node ngb M N. unfold create_ifname.
  destruct ngb as [|n r]; [simpl in N; lia|].
  assert (E : Nat.eqb (length (n :: r)) 1 = false) by (apply Nat.eqb_neq; lia). rewrite E. cbn [andb].
  destruct (Nat.leb_spec maxlen (String.length (node ++ " -> [" ++ (join "," (firstn maxn (n :: r)) ++
    (if (length (n :: r) <=? maxn)%nat then "" else "...")) ++ "]"))) as [L|L].
  - rewrite length_append.
    match goal with |- (String.length (substring 0 ?k ?s) + _ <= _)%nat => pose proof (length_substring k s) end.
    cbn [String.length]. lia.
  - lia.
Qed.

(* C90: interfaces with at most one neighbor *)
Theorem ifname_single : forall maxn maxlen node n,
  create_ifname maxn maxlen true node [] = (node ++ " -> stub")%string
  /\ create_ifname maxn maxlen true node [n] = (node ++ " -> " ++ n)%string.
Proof. intros. split; reflexivity. Qed.

(* a description that fits names the first neighbours *)
Theorem ifname_neighbors : forall maxn maxlen node ngb,
  (2 <= length ngb <= maxn)%nat ->
  (String.length node + String.length (join "," ngb) + 6 < maxlen)%nat ->
  create_ifname maxn maxlen true node ngb = (node ++ " -> [" ++ join "," ngb ++ "]")%string.
Proof.
  intros maxn maxlen node ngb N L. unfold create_ifname.
  destruct ngb as [|n r]; [simpl in N; lia|].
  assert (E : Nat.eqb (length (n :: r)) 1 = false) by (apply Nat.eqb_neq; lia). rewrite E. cbn [andb].
  rewrite firstn_all2 by lia.
  assert (Q : Nat.leb (length (n :: r)) maxn = true) by (apply Nat.leb_le; lia). rewrite Q.
  assert (Z : forall s, (s ++ "")%string = s) by (intros s; induction s as [|c q IH]; simpl; congruence).
  rewrite Z.
  match goal with |- context [Nat.leb maxlen ?k] => destruct (Nat.leb_spec maxlen k) as [X|X] end; auto.
  rewrite !length_append in X. cbn [String.length] in X. lia.
Qed.

Example ex_ifname :
  create_ifname 5 255 true "r1"%string ["r2"; "r3"]%string = "r1 -> [r2,r3]"%string
  /\ create_ifname 2 255 true "r1"%string ["r2"; "r3"; "r4"]%string = "r1 -> [r2,r3...]"%string
  /\ create_ifname 5 10 true "r1"%string ["r2"; "r3"]%string = "r1 -> [..."%string.
Proof. repeat split; reflexivity. Qed.

Print Assumptions mtu_effective.
Print Assumptions mtu_no_redundant.
Print Assumptions mtu_accepted.
Print Assumptions mtu_limits.
Print Assumptions mtu_ip_flag.
Print Assumptions node_af_exact.
Print Assumptions host_routes_exact.
Print Assumptions host_routes_member.
Print Assumptions host_default_routes.
Print Assumptions host_routes_crash.
Print Assumptions host_routes_crash_refuted.
Print Assumptions daemon_config_exact.
Print Assumptions link_type_exact.
Print Assumptions link_role_exact.
Print Assumptions link_accepted.
Print Assumptions link_default_type_accepted.
Print Assumptions unnumbered_checked.
Print Assumptions unnumbered_parent.
Print Assumptions ifname_length.
Print Assumptions ifname_neighbors.
Print Assumptions ifname_single.
