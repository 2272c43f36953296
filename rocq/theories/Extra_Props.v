(* Properties of extra configuration templates and of the removal of unmanaged devices: C54, C75. *)
From Coq Require Import String ZArith Lia Bool List Permutation Relations.
From Verif Require Import Base Sort_Model Sort_Props Extra_Model.
Import ListNotations.
Open Scope Z_scope.

(* [x] occurs somewhere in front of [y] *)
Definition precedes {A} (x y : A) (l : list A) : Prop := exists a b c, l = a ++ x :: b ++ y :: c.

Lemma precedes_filter : forall A (f : A -> bool) x y l, precedes x y l -> f x = true -> f y = true -> precedes x y (filter f l).
Proof.
  intros A f x y l [a [b [c ->]]] Fx Fy. exists (filter f a), (filter f b), (filter f c).
  rewrite filter_app. cbn [filter]. rewrite Fx, filter_app. cbn [filter]. rewrite Fy. auto.
Qed.

Lemma precedes_app_l : forall A (x y : A) l m, precedes x y l -> precedes x y (l ++ m).
Proof. intros A x y l m [a [b [c ->]]]. exists a, b, (c ++ m). rewrite <- app_assoc. cbn. rewrite <- app_assoc. auto. Qed.

Lemma precedes_app_r : forall A (x y : A) l m, precedes x y m -> precedes x y (l ++ m).
Proof. intros A x y l m [a [b [c ->]]]. exists (l ++ a), b, c. rewrite <- app_assoc. auto. Qed.

Lemma precedes_app : forall A (x y : A) l m, In x l -> In y m -> precedes x y (l ++ m).
Proof.
  intros A x y l m Hx Hy. apply in_split in Hx, Hy. destruct Hx as [a [b ->]]. destruct Hy as [c [d ->]].
  exists a, (b ++ c), d. repeat (rewrite <- !app_assoc; cbn [app]). auto.
Qed.

Lemma filter_perm : forall A (f : A -> bool) l, Permutation l (filter f l ++ filter (fun x => negb (f x)) l).
Proof.
  induction l as [|x l IH]; cbn [filter]; auto. destruct (f x); cbn [negb].
  - cbn [app]. constructor. auto.
  - apply Permutation_cons_app. auto.
Qed.

(* Templates of plugins come first, the order within both groups stays the same, nothing is lost or added. *)
Theorem plugin_config_first : forall plugins config, let out := cleanup_config plugins config in
  Permutation config out
  /\ (forall x y, In x config -> In y config -> In x plugins -> ~ In y plugins -> precedes x y out)
  /\ (forall x y, precedes x y config -> (In x plugins <-> In y plugins) -> precedes x y out)
  /\ (forall x y, precedes x y out -> In y plugins -> In x plugins).
Proof.
  intros plugins config out. unfold out, cleanup_config. split; [apply filter_perm|]. split; [|split].
  - intros x y Hx Hy Px Py. apply precedes_app; apply filter_In; split; auto; [apply memS_true; auto|]. apply memS_false in Py. rewrite Py. auto.
  - intros x y P E. destruct (memS x plugins) eqn:Mx.
    + assert (My : memS y plugins = true) by (apply memS_true; apply E; apply memS_true; auto). apply precedes_app_l. apply precedes_filter; auto.
    + assert (My : memS y plugins = false) by (apply memS_false; intros C; apply memS_false in Mx; tauto). apply precedes_app_r.
      apply precedes_filter; auto; [rewrite Mx|rewrite My]; auto.
  - intros x y [a [b [c E]]] Py.
    set (A := filter (fun c => memS c plugins) config) in *. set (B := filter (fun c => negb (memS c plugins)) config) in *.
    destruct (in_dec string_dec x plugins) as [|Nx]; auto. exfalso.
    assert (HB : forall z, In z B -> ~ In z plugins) by (intros z Hz; apply filter_In in Hz; destruct Hz as [_ Hz]; apply negb_true_iff in Hz; apply memS_false; auto).
    assert (HA : forall z, In z A -> In z plugins) by (intros z Hz; apply filter_In in Hz; destruct Hz as [_ Hz]; apply memS_true; auto).
    clearbody A B. clear out. revert a E. induction A as [|z A IH]; intros a E.
    + cbn [app] in E. apply (HB y); auto. rewrite E. apply in_app_iff. right. right. apply in_app_iff. right. left. auto.
    + destruct a as [|z' a]; cbn [app] in E; injection E as <- E.
      * apply Nx. apply HA. left. auto.
      * apply (IH (fun w Hw => HA w (or_intror Hw)) a E).
Qed.

Example plugin_config_case : cleanup_config ["p2"; "p1"]%string ["a"; "p1"; "b"; "p2"; "a"]%string = ["p1"; "p2"; "a"; "b"; "a"]%string.
Proof. reflexivity. Qed.

(* ------------------------------------------------------------------ *)
(* Topology-wide order of templates                                     *)

(* The first [x] occurs in front of the first [y] *)
Definition first_before (x y : string) (cfg : list string) : Prop := exists a b, cfg = a ++ y :: b /\ In x a /\ ~ In y a.

Lemma before_first_spec : forall y cfg x, In y cfg -> (In x (before_first y cfg) <-> first_before x y cfg).
Proof.
  induction cfg as [|z cfg IH]; intros x Hy; [destruct Hy|]. cbn [before_first]. destruct (String.eqb_spec y z) as [E|N].
  - subst z. split; [intros []|]. intros [a [b [E [Ha Na]]]]. destruct a as [|w a]; [destruct Ha|]. injection E as <- E. apply Na. left. auto.
  - assert (Hy' : In y cfg) by (destruct Hy as [C|?]; [congruence|auto]). cbn [In]. rewrite (IH x Hy'). split.
    + intros [<-|[a [b [-> [Ha Na]]]]].
      * destruct (in_dec string_dec y cfg) as [I|I]; [|contradiction].
        assert (F : exists a b, cfg = a ++ y :: b /\ ~ In y a).
        { clear IH N Hy I. induction cfg as [|w cfg IHc]; [destruct Hy'|]. destruct (string_dec y w) as [->|Nw].
          - exists [], cfg. split; auto.
          - destruct Hy' as [C|Hc]; [congruence|]. destruct (IHc Hc) as [a [b [-> Na]]]. exists (w :: a), b. split; auto. intros [C|C]; [congruence|auto]. }
        destruct F as [a [b [-> Na]]]. exists (z :: a), b. split; auto. split; [left; auto|]. intros [C|C]; [congruence|auto].
      * exists (z :: a), b. split; auto. split; [right; auto|]. intros [C|C]; [congruence|auto].
    + intros [a [b [E [Ha Na]]]]. destruct a as [|w a]; [destruct Ha|]. injection E as <- E. destruct Ha as [<-|Ha]; [left; auto|].
      right. exists a, b. split; auto. split; auto. intros C. apply Na. right. auto.
Qed.

Lemma preceding_spec : forall nodes x y, In x (find_preceding_configs nodes y) <-> exists cfg, In cfg nodes /\ first_before x y cfg.
Proof.
  intros nodes x y. unfold find_preceding_configs. rewrite in_flat_map. split.
  - intros [cfg [H1 H2]]. destruct (memS y cfg) eqn:M; [|destruct H2]. apply memS_true in M. apply before_first_spec in H2; eauto.
  - intros [cfg [H1 H2]]. exists cfg. split; auto. assert (In y cfg) by (destruct H2 as [a [b [-> _]]]; apply in_app_iff; right; left; auto).
    assert (M : memS y cfg = true) by (apply memS_true; auto). rewrite M. apply before_first_spec; auto.
Qed.

(* Two templates cannot be ordered when nodes use them in contradicting order. *)
Definition contradicting (nodes : list (list string)) : Prop :=
  exists x, clos_trans string (fun y x => exists cfg, In cfg nodes /\ first_before x y cfg) x x.

(* Every template is listed once, in the order in which the nodes use them. *)
Theorem extra_config_sorted : forall order nodes out, (forall l, Permutation l (order l)) ->
  sort_extra_config order nodes = Ok out ->
  NoDup out /\ (forall c, In c out <-> exists cfg, In cfg nodes /\ In c cfg)
  /\ forall cfg x y, In cfg nodes -> first_before x y cfg -> precedes x y out.
Proof.
  intros order nodes out Po H. unfold sort_extra_config in H. set (s := nodup string_dec (concat nodes)) in *.
  assert (Ns : NoDup s) by apply NoDup_nodup.
  assert (Is : forall c, In c s <-> exists cfg, In cfg nodes /\ In c cfg).
  { intros c. unfold s. rewrite nodup_In, in_concat. tauto. }
  assert (P : Permutation s out /\ ((2 <= length s)%nat -> in_dependency_order (find_preceding_configs nodes) out)).
  { destruct (order s) as [|a l] eqn:E.
    - injection H as <-. pose proof (Po s) as P. rewrite E in P. split; auto. rewrite (Permutation_length P). cbn. lia.
    - apply dependency_sort_sound in H. destruct H as [H1 H2]. pose proof (Po s) as P. rewrite E in P. split; [eapply Permutation_trans; eauto|].
      intros L. apply H2. rewrite <- (Permutation_length P). auto. }
  destruct P as [P Od]. split; [eapply Permutation_NoDup; eauto|]. split.
  - intros c. rewrite <- Is. split; apply Permutation_in; auto. apply Permutation_sym. auto.
  - intros cfg x y Hc F. destruct F as [a [b [E [Ha Na]]]].
    assert (Nxy : x <> y) by (intros ->; contradiction).
    assert (Ix : In x s) by (apply Is; exists cfg; split; auto; rewrite E; apply in_app_iff; auto).
    assert (Iy : In y s) by (apply Is; exists cfg; split; auto; rewrite E; apply in_app_iff; right; left; auto).
    assert (L : (2 <= length s)%nat).
    { destruct s as [|u [|v t]]; [destruct Ix| |cbn; lia]. destruct Ix as [<-|[]]. destruct Iy as [<-|[]]. congruence. }
    specialize (Od L). apply (Permutation_in x P) in Ix. apply (Permutation_in y P) in Iy.
    apply in_split in Iy. destruct Iy as [l1 [l2 Eo]].
    assert (Dep : In x (find_preceding_configs nodes y)) by (apply preceding_spec; exists cfg; split; auto; exists a, b; auto).
    pose proof (Od l1 y l2 Eo x Dep) as Nx. rewrite Eo in Ix. apply in_app_iff in Ix. destruct Ix as [Ix|Ix]; [|contradiction].
    apply in_split in Ix. destruct Ix as [p [q ->]]. exists p, q, l2. rewrite Eo, <- app_assoc. auto.
Qed.

(* The sort fails exactly when the nodes contradict each other. *)
Theorem extra_config_fails_iff : forall order nodes, (forall l, Permutation l (order l)) ->
  (sort_extra_config order nodes = Err DependencyLoop <-> contradicting nodes).
Proof.
  intros order nodes Po. unfold sort_extra_config. set (s := nodup string_dec (concat nodes)).
  assert (Is : forall c, In c s <-> exists cfg, In cfg nodes /\ In c cfg) by (intros c; unfold s; rewrite nodup_In, in_concat; tauto).
  pose proof (Po s) as P.
  assert (Both : forall x y, (exists cfg, In cfg nodes /\ first_before x y cfg) -> In x (order s) /\ In y (order s) /\ x <> y).
  { intros x y [cfg [Hc [a [b [E [Ha Na]]]]]]. split; [|split].
    - apply (Permutation_in x P). apply Is. exists cfg. split; auto. rewrite E. apply in_app_iff. auto.
    - apply (Permutation_in y P). apply Is. exists cfg. split; auto. rewrite E. apply in_app_iff. right. left. auto.
    - intros ->. contradiction. }
  assert (Eq : contradicting nodes <-> cyclic (find_preceding_configs nodes) (order s)).
  { assert (Mono : forall (R S : relation string), (forall u v, R u v -> S u v) -> forall u v, clos_trans string R u v -> clos_trans string S u v).
    { intros R S RS u v C. induction C as [u v St|u v w C1 IH1 C2 IH2]; [apply t_step; auto|]. exact (t_trans string S u v w IH1 IH2). }
    unfold contradicting, cyclic. split; intros [x C]; exists x; revert C; apply Mono; intros u v St.
    - destruct (Both v u St) as [B1 [B2 _]]. split; auto. split; auto. apply preceding_spec. auto.
    - destruct St as [_ [_ St]]. apply preceding_spec. auto. }
  assert (Two : contradicting nodes -> (2 <= length (order s))%nat).
  { intros [x C]. assert (S : exists u v, exists cfg, In cfg nodes /\ first_before v u cfg) by (clear Eq; induction C; eauto).
    destruct S as [u [v S]]. destruct (Both v u S) as [B1 [B2 B3]]. destruct (order s) as [|a [|b t]]; [destruct B1| |cbn; lia].
    destruct B1 as [<-|[]]. destruct B2 as [<-|[]]. congruence. }
  destruct (order s) as [|a [|b t]] eqn:E.
  - split; [discriminate|]. intros C. apply Two in C. cbn in C. lia.
  - split; [discriminate|]. intros C. apply Two in C. cbn in C. lia.
  - rewrite Eq. apply dependency_sort_fails_iff_cycle. cbn. lia.
Qed.

Example extra_config_case : sort_extra_config (fun l => rev l) [["a"; "b"]; ["c"; "a"]; ["b"]]%string = Ok ["c"; "a"; "b"]%string
  /\ sort_extra_config (fun l => l) [["a"; "b"]; ["b"; "a"]]%string = Err DependencyLoop.
Proof. split; reflexivity. Qed.

(* ------------------------------------------------------------------ *)
(* Unmanaged devices                                                    *)

Definition managed_node (nodes : dict bool) (n : string) : Prop := In (n, false) nodes.

Lemma managed_keys : forall nodes n, In n (dkeys (filter (fun nu => negb (snd nu)) nodes)) <-> managed_node nodes n.
Proof.
  intros nodes n. unfold dkeys. rewrite in_map_iff. split.
  - intros [[k u] [<- H]]. apply filter_In in H. destruct H as [H E]. cbn in *. apply negb_true_iff in E. subst. auto.
  - intros H. exists (n, false). split; auto. apply filter_In. auto.
Qed.

Lemma ghost_link_intf : forall name m l, gl_intf (ghost_link name m l) = filter (fun n => memS n m) (gl_intf l) /\ gl_index (ghost_link name m l) = gl_index l.
Proof.
  intros name m l. unfold ghost_link. destruct (_ =? _); [auto|]. unfold set_link_bridge_name. destruct (memS _ _); auto.
  destruct (gl_bridge _); auto.
Qed.

Lemma filter_all : forall A (f : A -> bool) l, length (filter f l) = length l -> filter f l = l.
Proof.
  induction l as [|x l IH]; cbn [filter]; intros H; auto. destruct (f x).
  - cbn in H. f_equal. apply IH. lia.
  - exfalso. assert (length (filter f l) <= length l)%nat by (clear; induction l as [|y l IH]; cbn; [lia|]; destruct (f y); cbn; lia). cbn in H. lia.
Qed.

Lemma filter_id : forall A (f : A -> bool) l, (forall x, In x l -> f x = true) -> filter f l = l.
Proof.
  induction l as [|x l IH]; cbn [filter]; intros H; auto. rewrite (H x (or_introl eq_refl)). f_equal. apply IH. intros y Hy. apply H. right. auto.
Qed.

(* The managed nodes and nothing else remain, links mention managed nodes only and keep all of them in the original
   order, and links without unmanaged nodes do not change. *)
Theorem ghost_buster_exact : forall name nodes links nodes' links', ghost_buster name nodes links = (nodes', links') ->
  (forall n u, In (n, u) nodes' <-> In (n, u) nodes /\ u = false)
  /\ (forall l', In l' links' -> exists l, In l links /\ gl_index l' = gl_index l
        /\ (forall n, In n (gl_intf l') <-> In n (gl_intf l) /\ managed_node nodes n)
        /\ (forall x y, precedes x y (gl_intf l) -> managed_node nodes x -> managed_node nodes y -> precedes x y (gl_intf l')))
  /\ (forall l, In l links -> (forall n, In n (gl_intf l) -> managed_node nodes n) -> gl_count l > 0 -> In l links').
Proof.
  intros name nodes links nodes' links' H. unfold ghost_buster in H. injection H as <- <-. split; [|split].
  - intros n u. rewrite filter_In. cbn [snd]. rewrite negb_true_iff. tauto.
  - intros l' Hl. apply filter_In in Hl. destruct Hl as [Hl _]. apply in_map_iff in Hl. destruct Hl as [l [<- Hl]]. exists l. split; auto.
    destruct (ghost_link_intf name (dkeys (filter (fun nu => negb (snd nu)) nodes)) l) as [E1 E2]. rewrite E1. split; auto. split.
    + intros n. rewrite filter_In, memS_true, managed_keys. tauto.
    + intros x y P Mx My. apply precedes_filter; auto; apply memS_true; apply managed_keys; auto.
  - intros l Hl F C. apply filter_In. split; [|apply Z.gtb_lt; lia]. apply in_map_iff. exists l. split; auto. unfold ghost_link.
    assert (E : filter (fun n => memS n (dkeys (filter (fun nu => negb (snd nu)) nodes))) (gl_intf l) = gl_intf l).
    { apply filter_id. intros n Hn. apply memS_true. apply managed_keys. auto. }
    rewrite E, Z.eqb_refl. destruct l; auto.
Qed.

(* When node counts match the interfaces, the links that remain are those with a managed node, their counts match
   again, and a former point-to-point link that lost a node is no longer one and has a bridge unless it became p2p. *)
Theorem ghost_buster_links : forall name nodes links nodes' links', ghost_buster name nodes links = (nodes', links') ->
  (forall l, In l links -> gl_count l = Z.of_nat (length (gl_intf l))) ->
  (forall l, In l links -> ((exists n, In n (gl_intf l) /\ managed_node nodes n) <-> exists l', In l' links' /\ l' = ghost_link name (dkeys nodes') l))
  /\ (forall l', In l' links' -> gl_count l' = Z.of_nat (length (gl_intf l')) /\ gl_count l' > 0)
  /\ (forall l, In l links -> length (gl_intf l) = 2%nat -> (exists n, In n (gl_intf l) /\ ~ managed_node nodes n) ->
        (gl_hosts l = 0 -> gl_type (ghost_link name (dkeys nodes') l) = "stub"%string)
        /\ (gl_hosts l <> 0 -> gl_type (ghost_link name (dkeys nodes') l) = "lan"%string)
        /\ gl_bridge (ghost_link name (dkeys nodes') l) <> None).
Proof.
  intros name nodes links nodes' links' H Cn. unfold ghost_buster in H. injection H as <- <-.
  set (m := dkeys (filter (fun nu => negb (snd nu)) nodes)).
  assert (Cg : forall l, In l links -> gl_count (ghost_link name m l) = Z.of_nat (length (gl_intf (ghost_link name m l)))).
  { intros l Hl. pose proof (Cn l Hl) as C. rewrite (proj1 (ghost_link_intf name m l)). unfold ghost_link.
    destruct (Z.eqb_spec (Z.of_nat (length (filter (fun n => memS n m) (gl_intf l)))) (Z.of_nat (length (gl_intf l)))) as [E|E].
    - cbn [gl_count]. rewrite C. auto.
    - rewrite C, Z.eqb_refl. unfold set_link_bridge_name. cbn [gl_type gl_bridge]. destruct (memS _ _); [auto|]. destruct (gl_bridge l); auto. }
  split; [|split].
  - intros l Hl. assert (K : gl_count (ghost_link name m l) >? 0 = true <-> exists n, In n (gl_intf l) /\ managed_node nodes n).
    { rewrite Cg by auto. rewrite (proj1 (ghost_link_intf name m l)). rewrite Z.gtb_lt. split.
      - intros L. destruct (filter (fun n => memS n m) (gl_intf l)) as [|n t] eqn:E; [cbn in L; lia|]. exists n.
        assert (I : In n (filter (fun n => memS n m) (gl_intf l))) by (rewrite E; left; auto). apply filter_In in I. destruct I as [I1 I2].
        split; auto. apply memS_true in I2. apply managed_keys. auto.
      - intros [n [I1 I2]]. assert (I : In n (filter (fun n => memS n m) (gl_intf l))) by (apply filter_In; split; auto; apply memS_true; apply managed_keys; auto).
        destruct (filter (fun n => memS n m) (gl_intf l)); [destruct I|]. cbn. lia. }
    rewrite <- K. split.
    + intros G. exists (ghost_link name m l). split; auto. apply filter_In. split; auto. apply in_map. auto.
    + intros [l' [I ->]]. apply filter_In in I. tauto.
  - intros l' I. apply filter_In in I. destruct I as [I1 I2]. apply in_map_iff in I1. destruct I1 as [l [<- Hl]]. split; [apply Cg; auto|].
    apply Z.gtb_lt in I2. lia.
  - intros l Hl L2 [n [In1 Nm]]. pose proof (Cn l Hl) as C. rewrite L2 in C.
    assert (Sh : (length (filter (fun n => memS n m) (gl_intf l)) < 2)%nat).
    { assert (Le : (length (filter (fun n => memS n m) (gl_intf l)) <= length (gl_intf l))%nat) by (clear; induction (gl_intf l) as [|y t IH]; cbn; [lia|]; destruct (memS y m); cbn; lia).
      destruct (Nat.eq_dec (length (filter (fun n => memS n m) (gl_intf l))) 2) as [E|E]; [|lia]. exfalso. apply Nm. apply managed_keys. apply memS_true.
      rewrite <- L2 in E. apply filter_all in E. rewrite <- E in In1. apply filter_In in In1. tauto. }
    unfold ghost_link. rewrite L2. set (k := length (filter (fun n => memS n m) (gl_intf l))) in *.
    destruct (Z.eqb_spec (Z.of_nat k) (Z.of_nat 2)) as [E|_]; [lia|].
    rewrite C. change (Z.of_nat 2 =? Z.of_nat 2) with true. change (Z.of_nat 2 =? 2) with true. cbn match.
    assert (T : get_default_link_type (Z.of_nat k) (gl_hosts l) = if gl_hosts l =? 0 then "stub"%string else "lan"%string).
    { unfold get_default_link_type. destruct (Z.gtb_spec (Z.of_nat k) 2); [lia|]. destruct (gl_hosts l =? 0); cbn [negb]; auto.
      destruct (Z.eqb_spec (Z.of_nat k) 2); [lia|auto]. }
    rewrite T. unfold set_link_bridge_name. cbn [gl_type gl_bridge gl_index gl_intf gl_count gl_hosts].
    destruct (Z.eqb_spec (gl_hosts l) 0) as [Z0|Z0].
    + change (memS "stub" ["p2p"; "loopback"; "vlan_member"]%string) with false. cbn match. destruct (gl_bridge l) eqn:B; cbn [gl_type gl_bridge]; (split; [auto|]; split; [congruence|congruence]).
    + change (memS "lan" ["p2p"; "loopback"; "vlan_member"]%string) with false. cbn match. destruct (gl_bridge l) eqn:B; cbn [gl_type gl_bridge]; (split; [congruence|]; split; [auto|congruence]).
Qed.

(* A link whose node count was set to another value (as for links between providers) survives without nodes. *)
Theorem ghost_buster_refuted : exists nodes links nodes' links', ghost_buster (fun _ => "br"%string) nodes links = (nodes', links')
  /\ exists l, In l links' /\ gl_intf l = [].
Proof.
  exists [("a", true); ("b", true)]%string, [mk_gl 1 ["a"; "b"]%string 999 0 "lan" None]. do 2 eexists. split; [vm_compute; reflexivity|].
  eexists. split; [left; reflexivity|auto].
Qed.

Example ghost_case : ghost_buster (fun _ => "br"%string) [("a", false); ("b", true); ("c", false)]%string
   [mk_gl 1 ["a"; "b"]%string 2 0 "p2p" None; mk_gl 2 ["b"]%string 1 0 "stub" (Some "x"%string); mk_gl 3 ["a"; "c"]%string 2 0 "p2p" None; mk_gl 4 ["a"; "b"; "c"]%string 3 0 "lan" (Some "y"%string)]
  = ([("a", false); ("c", false)]%string,
     [mk_gl 1 ["a"]%string 1 0 "stub" (Some "br"%string); mk_gl 3 ["a"; "c"]%string 2 0 "p2p" None; mk_gl 4 ["a"; "c"]%string 2 0 "lan" (Some "y"%string)]).
Proof. reflexivity. Qed.

Print Assumptions plugin_config_first.
Print Assumptions extra_config_sorted.
Print Assumptions extra_config_fails_iff.
Print Assumptions ghost_buster_exact.
Print Assumptions ghost_buster_links.
Print Assumptions ghost_buster_refuted.
