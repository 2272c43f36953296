(* Properties of lab validation on FRR: neighbors, IS-IS prefixes and routes. *)
From Coq Require Import String Ascii ZArith Lia Bool List.
From Verif Require Import Base Vnb_Model Mod_Props.
Import ListNotations.
Local Open Scope string_scope.
Local Open Scope list_scope.

(* ------------------------------------------------------------------ *)
(* C245: OSPF neighbors                                                 *)

(* states of the neighbor in the VRF, or outside when the VRF has no results *)
Definition states (id vrf : string) (vrfs : dict (dict (list string))) (res : dict (list string)) (l : list string) : Prop :=
  (exists r, dget vrf vrfs = Some r /\ dget id r = Some l) \/ (dget vrf vrfs = None /\ dget id res = Some l).

Theorem ospf_neighbor_exact : forall id vrf vrfs res,
  (valid_ospf_neighbor id true vrf vrfs res = true <-> exists b l, states id vrf vrfs res (("Full" ++ b)%string :: l))
  /\ (valid_ospf_neighbor id false vrf vrfs res = true <-> forall l, ~ states id vrf vrfs res l).
Proof.
  intros id vrf vrfs res. unfold valid_ospf_neighbor, states. cbv zeta.
  set (r := match dget vrf vrfs with Some x => x | None => res end).
  assert (R : forall l, ((exists q, dget vrf vrfs = Some q /\ dget id q = Some l) \/ (dget vrf vrfs = None /\ dget id res = Some l)) <-> dget id r = Some l).
  { intros l. unfold r. destruct (dget vrf vrfs) as [q|].
    - split; [intros [[x [E H]]|[E _]]; [injection E as E; subst x; exact H|discriminate E]|intros H; left; exists q; auto].
    - split; [intros [[x [E _]]|[_ H]]; [discriminate E|exact H]|intros H; right; auto]. }
  clearbody r. split.
  - destruct (dget id r) as [[|s l]|] eqn:G; cbn [negb].
    + split; [discriminate|]. intros [b [x H]]. apply R in H. discriminate H.
    + rewrite prefix_spec. split.
      * intros [b E]. exists b, l. apply R. rewrite <- E. reflexivity.
      * intros [b [x H]]. apply R in H. injection H as H1 H2. exists b. exact H1.
    + split; [discriminate|]. intros [b [x H]]. apply R in H. discriminate H.
  - destruct (dget id r) as [[|s l]|] eqn:G; cbn [negb].
    + split; [discriminate|]. intros H. exfalso. apply (H []). apply R. reflexivity.
    + split; [discriminate|]. intros H. exfalso. apply (H (s :: l)). apply R. reflexivity.
    + split; [|reflexivity]. intros _ l H. apply R in H. discriminate H.
Qed.

(* a key of the router [id]: the router ID alone or before the first percent sign *)
Definition of_router (id k : string) : Prop := ~ occurs "%" id /\ (k = id \/ exists i, k = (id ++ "%" ++ i)%string).

Lemma percent_occurs : forall c r, occurs "%" (String c r) <-> c = "%"%char \/ occurs "%" r.
Proof.
  intros c r. unfold occurs. split.
  - intros [a [b E]]. destruct a as [|x a]; cbn [String.append] in E; injection E as E1 E2; [left; exact E1|]. right. exists a, b. exact E2.
  - intros [E|[a [b E]]]; [exists ""%string, r; subst c; reflexivity|]. exists (String c a), b. rewrite E. reflexivity.
Qed.

Lemma router_id_spec : forall k id, router_id k = id <-> of_router id k.
Proof.
  assert (NE : ~ occurs "%" ""%string) by (intros [a [b E]]; destruct a; discriminate E).
  unfold of_router. induction k as [|c k IH]; intros id; cbn [router_id].
  - split; [intros E; subst id; auto|]. intros [_ [E|[i E]]]; [exact E|]. destruct id; discriminate E.
  - destruct (Ascii.eqb_spec c "%") as [C|C].
    + subst c. split.
      * intros E. subst id. split; [exact NE|]. right. exists k. reflexivity.
      * intros [N [E|[i E]]]; [subst id; exfalso; apply N, percent_occurs; left; reflexivity|]. destruct id as [|x id]; [reflexivity|]. cbn [String.append] in E. injection E as E1 E2. exfalso. apply N, percent_occurs. left. congruence.
    + split.
      * intros E. subst id. destruct (proj1 (IH (router_id k)) eq_refl) as [N [E|[i E]]]; (split; [rewrite percent_occurs; intros [Q|Q]; contradiction|]).
        -- left. f_equal. exact E.
        -- right. exists i. cbn [String.append]. f_equal. exact E.
      * intros [N [E|[i E]]].
        -- subst id. f_equal. apply IH. split; [intros Q; apply N, percent_occurs; right; exact Q|left; reflexivity].
        -- destruct id as [|x id]; cbn [String.append] in E; injection E as E1 E2; [contradiction|]. subst x. f_equal. apply IH. split; [intros Q; apply N, percent_occurs; right; exact Q|]. right. exists i. exact E2.
Qed.

Lemma find_nbr_spec : forall id res,
  match find_nbr id res with
  | None => forall k s, In (k, s) res -> ~ of_router id k
  | Some s => exists pre k post, res = pre ++ (k, s) :: post /\ of_router id k /\ forall p, In p pre -> ~ of_router id (fst p)
  end.
Proof.
  intros id. induction res as [|[k s] r IH]; cbn [find_nbr]; [intros k s []|].
  destruct (String.eqb_spec (router_id k) id) as [E|E].
  - apply router_id_spec in E. exists [], k, r. split; [reflexivity|]. split; [exact E|intros p []].
  - assert (N : ~ of_router id k) by (intros Q; apply router_id_spec in Q; contradiction). destruct (find_nbr id r) as [t|].
    + destruct IH as [pre [k0 [post [Q [O F]]]]]. exists ((k, s) :: pre), k0, post. split; [rewrite Q; reflexivity|]. split; [exact O|]. intros p [P|P]; [subst p; exact N|apply F; exact P].
    + intros k0 s0 [P|P]; [injection P as P1 P2; subst k0; exact N|exact (IH k0 s0 P)].
Qed.

(* the first entry of the router decides *)
Theorem ospf6_neighbor_exact : forall id res,
  (valid_ospf6_neighbor id true res = true <-> exists pre k post, res = pre ++ (k, "Full") :: post /\ of_router id k /\ forall p, In p pre -> ~ of_router id (fst p))
  /\ (valid_ospf6_neighbor id false res = true <-> forall k s, In (k, s) res -> ~ of_router id k).
Proof.
  intros id res. unfold valid_ospf6_neighbor. pose proof (find_nbr_spec id res) as F. destruct (find_nbr id res) as [s|]; cbn [negb].
  - destruct F as [pre [k [post [E [O N]]]]]. split.
    + destruct (String.eqb_spec s "Full") as [S|S].
      * split; [intros _|reflexivity]. subst s. exists pre, k, post. auto.
      * split; [discriminate|]. intros [pre' [k' [post' [E' [O' N']]]]]. exfalso. rewrite E in E'. clear E. revert pre' N' E'. induction pre as [|x pre IH]; intros pre' N' E'.
        -- destruct pre' as [|y pre']; [injection E' as E1 E2 E3; contradiction|]. injection E' as E1 E2. subst y. exact (N' _ (or_introl eq_refl) O).
        -- destruct pre' as [|y pre']; [injection E' as E1 E2; subst x; exact (N _ (or_introl eq_refl) O')|]. injection E' as E1 E2. apply (IH (fun p P => N p (or_intror P)) pre'); [intros p P; apply N'; right; exact P|exact E2].
    + split; [discriminate|]. intros H. exfalso. apply (H k s); [rewrite E; apply in_app_iff; right; left; reflexivity|exact O].
  - split; [|split; [intros _; exact F|reflexivity]]. split; [discriminate|]. intros [pre [k [post [E [O _]]]]]. exfalso. apply (F k "Full"); [rewrite E; apply in_app_iff; right; left; reflexivity|exact O].
Qed.

(* a neighbor in state Full on one interface is not always accepted *)
Theorem ospf6_any_interface_refuted :
  In ("10.0.0.2%eth2", "Full") [("10.0.0.2%eth1", "Init"); ("10.0.0.2%eth2", "Full")] /\ of_router "10.0.0.2" "10.0.0.2%eth2"
  /\ valid_ospf6_neighbor "10.0.0.2" true [("10.0.0.2%eth1", "Init"); ("10.0.0.2%eth2", "Full")] = false.
Proof.
  split; [right; left; reflexivity|]. split; [|reflexivity]. apply router_id_spec. reflexivity.
Qed.

Example ospf_neighbor_case :
  valid_ospf_neighbor "10.0.0.2" true "default" [] [("10.0.0.2", ["Full/DR"])] = true
  /\ valid_ospf_neighbor "10.0.0.2" true "red" [("red", [("10.0.0.2", ["Init/-"])])] [] = false
  /\ valid_ospf6_neighbor "10.0.0.2" true [("10.0.0.1%eth1", "Init"); ("10.0.0.2%eth2", "Full")] = true.
Proof. split; [reflexivity|split; reflexivity]. Qed.

(* ------------------------------------------------------------------ *)
(* C246: IS-IS prefixes and routes                                      *)

(* all prefixes of the level and address family, in order *)
Inductive listed (level af : string) : list isis_area -> list (string * option Z) -> Prop :=
| INil : listed level af [] []
| IHas : forall a r info l ls, dget level a = Some info -> dget af info = Some l -> listed level af r ls -> listed level af (a :: r) (l ++ ls)
| INot : forall a r ls, (forall info l, dget level a = Some info -> dget af info <> Some l) -> listed level af r ls -> listed level af (a :: r) ls.

Lemma isis_scan_app : forall pfx present cost l ls, isis_scan pfx present cost (l ++ ls) = match isis_scan pfx present cost l with Some b => Some b | None => isis_scan pfx present cost ls end.
Proof.
  intros pfx present cost l ls. induction l as [|[p m] r IH]; [reflexivity|]. cbn [app isis_scan]. destruct (String.eqb p pfx); [reflexivity|exact IH].
Qed.

Lemma isis_listed : forall pfx level af present cost areas ls, listed level af areas ls ->
  valid_isis_prefix pfx level af present cost areas = match isis_scan pfx present cost ls with Some b => b | None => negb present end.
Proof.
  intros pfx level af present cost areas ls H. induction H as [|a r info l ls A B H IH|a r ls N H IH]; cbn [valid_isis_prefix]; [reflexivity| |].
  - rewrite A, B, isis_scan_app. destruct (isis_scan pfx present cost l); [reflexivity|exact IH].
  - destruct (dget level a) as [info|]; [|exact IH]. destruct (dget af info) as [l|] eqn:G; [exfalso; exact (N info l eq_refl G)|exact IH].
Qed.

Lemma listed_exists : forall level af areas, exists ls, listed level af areas ls.
Proof.
  intros level af. induction areas as [|a r [ls IH]]; [exists []; constructor|]. destruct (dget level a) as [info|] eqn:A.
  - destruct (dget af info) as [l|] eqn:B; [exists (l ++ ls); apply (IHas level af a r info l ls A B IH)|]. exists ls. apply INot; [|exact IH]. intros i l E. rewrite A in E. injection E as E. subst i. congruence.
  - exists ls. apply INot; [|exact IH]. intros i l E. congruence.
Qed.

(* the first entry of the prefix in all areas decides *)
Theorem isis_prefix_exact : forall pfx level af cost areas, exists ls, listed level af areas ls
  /\ (valid_isis_prefix pfx level af true cost areas = true <->
        exists pre m post, ls = pre ++ (pfx, m) :: post /\ (forall x, ~ In (pfx, x) pre) /\ forall c, cost = Some c -> m = Some c)
  /\ (valid_isis_prefix pfx level af false cost areas = true <-> forall x, ~ In (pfx, x) ls).
Proof.
  intros pfx level af cost areas. destruct (listed_exists level af areas) as [ls L]. exists ls. split; [exact L|].
  rewrite !(isis_listed pfx level af _ cost areas ls L). clear L. induction ls as [|[p m] r [IH1 IH2]].
  { cbn [isis_scan negb]. split; [split; [discriminate|intros [pre [m [post [E _]]]]; destruct pre; discriminate E]|split; [intros _ x []|reflexivity]]. }
  cbn [isis_scan negb]. destruct (String.eqb_spec p pfx) as [E|E].
  - subst p. split.
    + assert (V : match cost with None => true | Some c => match m with Some x => Z.eqb x c | None => false end end = true <-> forall c, cost = Some c -> m = Some c).
      { destruct cost as [c|]; [|split; [intros _ c Q; discriminate Q|reflexivity]]. destruct m as [x|].
        - rewrite Z.eqb_eq. split; [intros Q c0 R; congruence|intros Q; specialize (Q c eq_refl); congruence].
        - split; [discriminate|intros Q; specialize (Q c eq_refl); discriminate Q]. }
      rewrite V. split.
      * intros Q. exists [], m, r. split; [reflexivity|]. split; [intros x []|exact Q].
      * intros [pre [m0 [post [E [N Q]]]]]. destruct pre as [|y pre]; [injection E as E1 E2; subst m0; exact Q|]. injection E as E1 E2. subst y. exfalso. apply (N m). left. reflexivity.
    + split; [discriminate|]. intros N. exfalso. apply (N m). left. reflexivity.
  - split.
    + rewrite IH1. split.
      * intros [pre [m0 [post [Q [N C]]]]]. exists ((p, m) :: pre), m0, post. split; [rewrite Q; reflexivity|]. split; [|exact C]. intros x [X|X]; [congruence|exact (N x X)].
      * intros [pre [m0 [post [Q [N C]]]]]. destruct pre as [|y pre]; [injection Q as Q1 Q2; congruence|]. injection Q as Q1 Q2. exists pre, m0, post. split; [exact Q2|]. split; [intros x X; apply (N x); right; exact X|exact C].
    + rewrite IH2. split; [intros N x [X|X]; [congruence|exact (N x X)]|intros N x X; apply (N x); right; exact X].
Qed.

(* a route is accepted when it is in the table and the first route has the metric; a route that is not there only when it should be missing *)
Theorem rt_prefix_exact : forall pfx st metric table,
  valid_rt_prefix pfx st metric table = true <->
  (dget pfx table = None /\ st = Some "missing") \/ exists m l, dget pfx table = Some (m :: l) /\ forall v, metric = Some v -> m = Some v.
Proof.
  intros pfx st metric table. unfold valid_rt_prefix. destruct (dget pfx table) as [[|m l]|].
  - split; [discriminate|]. intros [[Q _]|[m [l [Q _]]]]; discriminate Q.
  - split.
    + intros H. right. exists m, l. split; [reflexivity|]. intros v V. subst metric. destruct m as [x|]; [|discriminate H]. apply Z.eqb_eq in H. congruence.
    + intros [[Q _]|[m0 [l0 [Q V]]]]; [discriminate Q|]. injection Q as Q1 Q2. subst m0. destruct metric as [v|]; [|reflexivity]. specialize (V v eq_refl). subst m. apply Z.eqb_refl.
  - split.
    + destruct st as [s|]; [|discriminate]. intros H. apply String.eqb_eq in H. subst s. left. auto.
    + intros [[_ Q]|[m [l [Q _]]]]; [subst st; reflexivity|discriminate Q].
Qed.

(* a route that should be missing is accepted when it is in the table *)
Theorem rt_missing_refuted : valid_rt_prefix "10.0.0.0/24" (Some "missing") None [("10.0.0.0/24", [Some 20%Z])] = true.
Proof. reflexivity. Qed.

(* a cost of a later entry of the prefix is not accepted *)
Theorem isis_any_cost_refuted :
  valid_isis_prefix "10.0.0.0/24" "level-2" "ipv4" true (Some 20%Z)
    [[("level-2", [("ipv4", [("10.0.0.0/24", Some 10%Z); ("10.0.0.0/24", Some 20%Z)])])]] = false.
Proof. reflexivity. Qed.

Example isis_prefix_case :
  valid_isis_prefix "10.0.0.0/24" "level-2" "ipv4" true (Some 10%Z)
    [[("level-1", [])]; [("level-2", [("ipv4", [("10.1.0.0/24", Some 5%Z); ("10.0.0.0/24", Some 10%Z)])])]] = true
  /\ valid_isis_prefix "10.0.0.0/24" "level-1" "ipv4" false None [[("level-2", [("ipv4", [("10.0.0.0/24", Some 10%Z)])])]] = true
  /\ valid_rt_prefix "10.0.0.0/24" None (Some 20%Z) [("10.0.0.0/24", [Some 20%Z])] = true.
Proof. split; [reflexivity|split; reflexivity]. Qed.

Print Assumptions ospf_neighbor_exact.
Print Assumptions ospf6_neighbor_exact.
Print Assumptions ospf6_any_interface_refuted.
Print Assumptions isis_prefix_exact.
Print Assumptions rt_prefix_exact.
Print Assumptions rt_missing_refuted.
Print Assumptions isis_any_cost_refuted.
