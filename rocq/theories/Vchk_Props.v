(* Properties of checks of VLAN interfaces, IS-IS on unnumbered interfaces and OSPF node attributes. *)
From Coq Require Import String Ascii ZArith Lia Bool List.
From Verif Require Import Base Box_Model Dev_Model Ndev_Model Vchk_Model Pset_Props.
Import ListNotations.
Local Open Scope string_scope.
Local Open Scope list_scope.

(* ------------------------------------------------------------------ *)
(* C231: attributes of VLAN interfaces                                  *)

(* the interface uses an access or a native VLAN *)
Definition uses_vlan (i : dict val) : Prop := exists k v, (k = "access" \/ k = "native") /\ lookup ["vlan"; k] (VDict i) = Some v /\ truthy v = true.
Definition mode_of (i : dict val) (m : val) : Prop := dget "_vlan_mode" i = Some m /\ m <> VNull.
Definition no_mode (i : dict val) : Prop := dget "_vlan_mode" i = None \/ dget "_vlan_mode" i = Some VNull.
Definition routed_vlan (mixed : bool) (modes : dict string) (vname : option string) (n : string) : Prop :=
  mixed = true /\ vname = Some n /\ dget n modes = Some "route".
(* attributes that must not be used *)
Definition unexpected (phy : list string) (i : dict val) (k : string) : Prop :=
  In k (dkeys i) /\ ~ In k phy /\ k <> "node" /\ k <> "_vlan_mode" /\ ~ ((k = "ipv4" \/ k = "ipv6") /\ dget k i = Some (VBool false)).

Lemma set_path_spec : forall p i, set_path p i = true <-> exists v, lookup p (VDict i) = Some v /\ truthy v = true.
Proof.
  intros p i. unfold set_path. destruct (lookup p (VDict i)) as [v|].
  - split; [intros T; exists v; auto|]. intros [x [Q T]]. injection Q as Q. subst x. exact T.
  - split; [intros H; discriminate H|]. intros [x [Q _]]. discriminate Q.
Qed.

Lemma uses_spec : forall i, set_path ["vlan"; "access"] i || set_path ["vlan"; "native"] i = true <-> uses_vlan i.
Proof.
  intros i. rewrite orb_true_iff, !set_path_spec. unfold uses_vlan. split.
  - intros [[v H]|[v H]]; [exists "access", v|exists "native", v]; auto.
  - intros [k [v [[K|K] H]]]; subst k; [left|right]; exists v; exact H.
Qed.

Lemma attr_ok_spec : forall phy i k, In k (dkeys i) -> (attr_ok phy i k = false <-> unexpected phy i k).
Proof.
  intros phy i k I. unfold attr_ok, unexpected. rewrite orb_false_iff, memS_false, in_app_iff. cbn [In].
  assert (F : memS k ["ipv4"; "ipv6"] && is_false (dget k i) = true <-> (k = "ipv4" \/ k = "ipv6") /\ dget k i = Some (VBool false)).
  { rewrite andb_true_iff, memS_true. cbn [In]. assert (X : is_false (dget k i) = true <-> dget k i = Some (VBool false)).
    { unfold is_false. destruct (dget k i) as [v|]; [|split; intros H; discriminate H]. destruct v as [|b|z|s|l|d]; try (split; intros H; discriminate H). destruct b; split; intros H; try discriminate H; reflexivity. }
    rewrite X. split; [intros [[H|[H|[]]] Q]; auto|intros [[H|H] Q]; auto]. }
  rewrite <- not_true_iff_false, F. split.
  - intros [A B]. split; [exact I|]. split; [intros Q; apply A; left; exact Q|]. split; [intros Q; apply A; right; left; symmetry; exact Q|]. split; [intros Q; apply A; right; right; left; symmetry; exact Q|exact B].
  - intros [_ [A [B [C D]]]]. split; [|exact D]. intros [Q|[Q|[Q|[]]]]; [exact (A Q)|apply B; symmetry; exact Q|apply C; symmetry; exact Q].
Qed.

Lemma is_text_spec : forall s v, is_text s v = true <-> v = VStr s.
Proof.
  intros s v. unfold is_text. destruct v as [|b|z|t|l|d]; try (split; intros H; discriminate H). rewrite String.eqb_eq. split; [intros H; subst t; reflexivity|intros H; injection H as H; exact H].
Qed.

(* the check stops the program, accepts the interface, reports a routed VLAN or reports exactly the unexpected attributes *)
Theorem link_interface_check_exact : forall phy mixed modes vname i,
  match check_link_interface phy mixed modes vname i with
  | VLAbort => no_mode i /\ uses_vlan i
  | VLOk => (no_mode i /\ ~ uses_vlan i)
            \/ exists m, mode_of i m /\ (m = VStr "route" \/ (forall n, ~ routed_vlan mixed modes vname n) /\ forall k, ~ unexpected phy i k)
  | VLRouted n => (exists m, mode_of i m /\ m <> VStr "route") /\ routed_vlan mixed modes vname n
  | VLInvalid bad => (exists m, mode_of i m /\ m <> VStr "route") /\ (forall n, ~ routed_vlan mixed modes vname n)
                     /\ bad <> [] /\ forall k, In k bad <-> unexpected phy i k
  end.
Proof.
  intros phy mixed modes vname i. unfold check_link_interface, get_vlan_interface_mode.
  assert (NM : no_mode i -> match (if set_path ["vlan"; "access"] i || set_path ["vlan"; "native"] i then VLAbort else VLOk) with
     | VLAbort => no_mode i /\ uses_vlan i | VLOk => no_mode i /\ ~ uses_vlan i | _ => False end).
  { intros N. pose proof (uses_spec i) as U. destruct (set_path ["vlan"; "access"] i || set_path ["vlan"; "native"] i).
    - split; [exact N|]. apply U. reflexivity.
    - split; [exact N|]. intros Q. apply U in Q. discriminate Q. }
  assert (MO : forall m, mode_of i m -> match
      (if is_text "route" m then VLOk
      else
        let rest := match filter (fun k => negb (attr_ok phy i k)) (dkeys i) with [] => VLOk | bad => VLInvalid bad end in
        match vname with
        | None => rest
        | Some n => match dget n modes with
                    | Some f => if String.eqb f "route" && mixed then VLRouted n else rest
                    | None => rest
                    end
        end) with
  | VLAbort => no_mode i /\ uses_vlan i
  | VLOk => (no_mode i /\ ~ uses_vlan i)
            \/ exists m, mode_of i m /\ (m = VStr "route" \/ (forall n, ~ routed_vlan mixed modes vname n) /\ forall k, ~ unexpected phy i k)
  | VLRouted n => (exists m, mode_of i m /\ m <> VStr "route") /\ routed_vlan mixed modes vname n
  | VLInvalid bad => (exists m, mode_of i m /\ m <> VStr "route") /\ (forall n, ~ routed_vlan mixed modes vname n)
                     /\ bad <> [] /\ forall k, In k bad <-> unexpected phy i k
  end).
  { intros m M. destruct (is_text "route" m) eqn:T.
    - right. exists m. split; [exact M|]. left. apply is_text_spec. exact T.
    - assert (NR : m <> VStr "route") by (intros Q; apply is_text_spec in Q; congruence).
      assert (FI : forall k, In k (filter (fun k => negb (attr_ok phy i k)) (dkeys i)) <-> unexpected phy i k).
      { intros k. rewrite filter_In, negb_true_iff. split; [intros [I A]; apply attr_ok_spec; assumption|]. intros U. assert (I := proj1 U). split; [exact I|]. apply attr_ok_spec; assumption. }
      assert (REST : (forall n, ~ routed_vlan mixed modes vname n) -> match (match filter (fun k => negb (attr_ok phy i k)) (dkeys i) with [] => VLOk | bad => VLInvalid bad end) with
        | VLAbort => no_mode i /\ uses_vlan i
        | VLOk => (no_mode i /\ ~ uses_vlan i)
            \/ exists m, mode_of i m /\ (m = VStr "route" \/ (forall n, ~ routed_vlan mixed modes vname n) /\ forall k, ~ unexpected phy i k)
        | VLRouted n => (exists m, mode_of i m /\ m <> VStr "route") /\ routed_vlan mixed modes vname n
        | VLInvalid bad => (exists m, mode_of i m /\ m <> VStr "route") /\ (forall n, ~ routed_vlan mixed modes vname n)
                     /\ bad <> [] /\ forall k, In k bad <-> unexpected phy i k
        end).
      { intros NV. destruct (filter (fun k => negb (attr_ok phy i k)) (dkeys i)) as [|b bs].
        - right. exists m. split; [exact M|]. right. split; [exact NV|]. intros k U. apply FI in U. destruct U.
        - split; [exists m; auto|]. split; [exact NV|]. split; [discriminate|exact FI]. }
      cbv zeta. destruct vname as [n|]; [|apply REST; intros n [_ [Q _]]; discriminate Q].
      destruct (dget n modes) as [f|] eqn:G; [|apply REST; intros x [_ [Q1 Q2]]; injection Q1 as Q1; subst x; congruence].
      destruct (String.eqb f "route" && mixed) eqn:E.
      + apply andb_true_iff in E. destruct E as [E1 E2]. apply String.eqb_eq in E1. subst f. split; [exists m; auto|]. split; [exact E2|]. split; [reflexivity|exact G].
      + apply REST. intros x [Q0 [Q1 Q2]]. injection Q1 as Q1. subst x. rewrite G in Q2. injection Q2 as Q2. subst f mixed. discriminate E. }
  destruct (dget "_vlan_mode" i) as [m|] eqn:G.
  - destruct m as [|b|z|s|l|d]; [|apply MO; split; [exact G|discriminate]..].
    specialize (NM (or_intror G)). destruct (set_path ["vlan"; "access"] i || set_path ["vlan"; "native"] i); [exact NM|left; exact NM].
  - specialize (NM (or_introl G)). destruct (set_path ["vlan"; "access"] i || set_path ["vlan"; "native"] i); [exact NM|left; exact NM].
Qed.

Example link_interface_cases :
  let i := [("node", VStr "a"); ("_vlan_mode", VStr "irb"); ("ipv4", VBool false); ("ipv6", VStr "::1/64"); ("ospf", VDict []); ("ifindex", VInt 1)] in
  check_link_interface ["ifindex"] true [("red", "route")] (Some "blue") i = VLInvalid ["ipv6"; "ospf"]
  /\ check_link_interface ["ifindex"] true [("red", "route")] (Some "red") i = VLRouted "red"
  /\ check_link_interface [] true [] None [("vlan", VDict [("access", VStr "red")])] = VLAbort.
Proof. repeat split; reflexivity. Qed.

(* ------------------------------------------------------------------ *)
(* C232: cleanup of VLAN flags                                          *)

Definition flag (k : string) : Prop := k = "vlan_name" \/ k = "_global_merge" \/ k = "_vlan_mode".

Lemma clean_base : forall (i : dict val) k, dget k (dpop "_global_merge" (dpop "vlan_name" i)) =
  if String.eqb k "vlan_name" || String.eqb k "_global_merge" then None else dget k i.
Proof.
  intros i k. destruct (String.eqb_spec k "_global_merge") as [E|E].
  - subst k. rewrite dget_dpop_same. reflexivity.
  - rewrite dget_dpop_other by exact E. rewrite orb_false_r. destruct (String.eqb_spec k "vlan_name") as [F|F]; [subst k; apply dget_dpop_same|apply dget_dpop_other; exact F].
Qed.

Lemma dpop_absent : forall (d : dict val) k, dget k d = None -> dpop k d = d.
Proof.
  induction d as [|[j v] r IH]; intros k G; [reflexivity|]. cbn [dget] in G. cbn [dpop]. destruct (String.eqb k j); [discriminate G|]. rewrite (IH k G). reflexivity.
Qed.

(* internal attributes are gone, the internal mode is the mode of the VLAN interface, everything else stays *)
Theorem vlan_cleanup_exact : forall i,
  (forall k, flag k -> dget k (clean_intf i) = None)
  /\ (forall k, ~ flag k -> k <> "vlan" -> dget k (clean_intf i) = dget k i)
  /\ (dget "_vlan_mode" i = None -> dget "vlan" (clean_intf i) = dget "vlan" i)
  /\ (forall m, dget "_vlan_mode" i = Some m -> exists d, dget "vlan" (clean_intf i) = Some (VDict d) /\ dget "mode" d = Some m
        /\ forall k, k <> "mode" -> dget k d = match dget "vlan" i with Some (VDict v) => dget k v | _ => None end).
Proof.
  intros i. unfold clean_intf. cbv zeta. pose proof (clean_base i) as CB. set (i1 := dpop "_global_merge" (dpop "vlan_name" i)) in *. clearbody i1.
  assert (GM : dget "_vlan_mode" i1 = dget "_vlan_mode" i) by exact (CB "_vlan_mode").
  assert (GV : dget "vlan" i1 = dget "vlan" i) by exact (CB "vlan").
  assert (OT : forall k, ~ flag k -> dget k i1 = dget k i).
  { intros k N. rewrite CB. destruct (String.eqb_spec k "vlan_name") as [E|E]; [exfalso; apply N; left; exact E|].
    destruct (String.eqb_spec k "_global_merge") as [F|F]; [exfalso; apply N; right; left; exact F|reflexivity]. }
  assert (FL : forall k, flag k -> k <> "_vlan_mode" -> dget k i1 = None).
  { intros k [K|[K|K]] N; [| |contradiction]; subst k; rewrite CB; reflexivity. }
  rewrite GM. destruct (dget "_vlan_mode" i) as [m|] eqn:G.
  - split; [|split; [|split]].
    + intros k K. destruct (String.string_dec k "_vlan_mode") as [E|E]; [subst k; apply dget_dpop_same|]. rewrite dget_dpop_other by exact E.
      rewrite dget_dset_other; [apply FL; assumption|]. intros Q. subst k. destruct K as [K|[K|K]]; discriminate K.
    + intros k K N. rewrite dget_dpop_other by (intros Q; apply K; right; right; exact Q). rewrite dget_dset_other by exact N. apply OT. exact K.
    + intros Q. discriminate Q.
    + intros x Q. injection Q as Q. subst x. exists (dset "mode" m (rdd "vlan" i1)). split; [rewrite dget_dpop_other by discriminate; apply dget_dset_same|].
      split; [apply dget_dset_same|]. intros k K. rewrite dget_dset_other by exact K. unfold rdd, rd. rewrite GV.
      destruct (dget "vlan" i) as [v|]; [|reflexivity]. destruct v; reflexivity.
  - split; [|split; [|split]].
    + intros k K. destruct (String.string_dec k "_vlan_mode") as [E|E]; [subst k; exact GM|]. apply FL; assumption.
    + intros k K _. apply OT. exact K.
    + intros _. exact GV.
    + intros m Q. discriminate Q.
Qed.

(* a second cleanup changes nothing *)
Theorem vlan_cleanup_stable : forall i, clean_intf (clean_intf i) = clean_intf i.
Proof.
  intros i. destruct (vlan_cleanup_exact i) as [F _]. set (j := clean_intf i) in *. clearbody j. unfold clean_intf. cbv zeta.
  rewrite (dpop_absent j "vlan_name") by (apply F; left; reflexivity). rewrite (dpop_absent j "_global_merge") by (apply F; right; left; reflexivity).
  rewrite (F "_vlan_mode") by (right; right; reflexivity). reflexivity.
Qed.

Theorem node_vlan_cleanup : forall v k, dget k (clean_vlan v) = if String.eqb k "neighbors" || String.eqb k "_global_merge" then None else dget k v.
Proof.
  intros v k. unfold clean_vlan. destruct (String.eqb_spec k "neighbors") as [E|E]; cbn [orb]; [subst k; apply dget_dpop_same|]. rewrite dget_dpop_other by exact E.
  destruct (String.eqb_spec k "_global_merge") as [F|F]; [subst k; apply dget_dpop_same|apply dget_dpop_other; exact F].
Qed.

Example vlan_cleanup_case : clean_intf [("vlan_name", VStr "red"); ("vlan", VDict [("access", VStr "red"); ("mode", VStr "x")]); ("_vlan_mode", VStr "irb"); ("name", VStr "n")] =
  [("vlan", VDict [("access", VStr "red"); ("mode", VStr "irb")]); ("name", VStr "n")].
Proof. reflexivity. Qed.

(* ------------------------------------------------------------------ *)
(* C233: IS-IS on unnumbered interfaces                                 *)

Definition unnumbered (af : string) (i : uintf) : Prop := dget af (u_af i) = Some (VBool true).
Definition unsupported (sup : string -> bool) (l : list uintf) (af : string) : Prop := sup af = false /\ exists i, In i l /\ unnumbered af i.

Lemma unnum_spec : forall af i, unnum af i = true <-> unnumbered af i.
Proof.
  intros af i. unfold unnum, unnumbered. destruct (dget af (u_af i)) as [v|]; [|split; intros H; discriminate H].
  destruct v as [|b|z|s|l|d]; try (split; intros H; discriminate H). destruct b; split; intros H; try discriminate H; reflexivity.
Qed.

Lemma unsup_spec : forall sup l af, existsb (unnum af) l && negb (sup af) = true <-> unsupported sup l af.
Proof.
  intros sup l af. unfold unsupported. rewrite andb_true_iff, negb_true_iff, existsb_exists. split.
  - intros [[i [I U]] S]. split; [exact S|]. exists i. split; [exact I|apply unnum_spec; exact U].
  - intros [S [i [I U]]]. split; [|exact S]. exists i. split; [exact I|apply unnum_spec; exact U].
Qed.

(* an unsupported address family is the only report, IPv4 first; otherwise exactly the unnumbered multi-access interfaces are reported *)
Theorem isis_unnumbered_exact : forall sup net l,
  (unsupported sup l "ipv4" -> isis_unnumbered sup net l = ([UFamily "ipv4"], false))
  /\ (~ unsupported sup l "ipv4" -> unsupported sup l "ipv6" -> isis_unnumbered sup net l = ([UFamily "ipv6"], false))
  /\ (~ unsupported sup l "ipv4" -> ~ unsupported sup l "ipv6" -> forall e, In e (fst (isis_unnumbered sup net l)) <->
        net = false /\ exists i, In i l /\ unnumbered "ipv4" i /\ (u_nbrs i > 1)%nat /\ e = UMulti (u_name i))
  /\ (snd (isis_unnumbered sup net l) = true <-> fst (isis_unnumbered sup net l) = []).
Proof.
  intros sup net l. unfold isis_unnumbered. cbn [families]. pose proof (unsup_spec sup l "ipv4") as U4. pose proof (unsup_spec sup l "ipv6") as U6.
  destruct (existsb (unnum "ipv4") l && negb (sup "ipv4")).
  { split; [reflexivity|]. split; [intros N; exfalso; apply N; apply U4; reflexivity|]. split; [intros N; exfalso; apply N; apply U4; reflexivity|].
    cbn [fst snd]. split; intros H; discriminate H. }
  destruct (existsb (unnum "ipv6") l && negb (sup "ipv6")).
  { split; [intros U; apply U4 in U; discriminate U|]. split; [reflexivity|]. split; [intros _ N; exfalso; apply N; apply U6; reflexivity|].
    cbn [fst snd]. split; intros H; discriminate H. }
  split; [intros U; apply U4 in U; discriminate U|]. split; [intros _ U; apply U6 in U; discriminate U|]. cbv zeta. cbn [fst snd]. split.
  - intros _ _ e. rewrite in_map_iff. split.
    + intros [i [E I]]. apply filter_In in I. destruct I as [I C]. apply andb_true_iff in C. destruct C as [C N]. apply andb_true_iff in C. destruct C as [C1 C2].
      apply negb_true_iff in N. apply Nat.ltb_lt in C2. apply unnum_spec in C1. split; [exact N|]. exists i. auto.
    + intros [N [i [I [U [G E]]]]]. exists i. split; [symmetry; exact E|]. apply filter_In. split; [exact I|]. apply unnum_spec in U. rewrite U, N.
      apply Nat.ltb_lt in G. rewrite G. reflexivity.
  - destruct (filter (fun i => unnum "ipv4" i && Nat.ltb 1 (u_nbrs i) && negb net) l); cbn [map]; split; intros H; try reflexivity; discriminate H.
Qed.

Example isis_unnumbered_case : let l := [UI "a" [("ipv4", VBool true)] 2; UI "b" [("ipv4", VStr "10.0.0.1/24"); ("ipv6", VBool true)] 3] in
  isis_unnumbered (fun _ => true) false l = ([UMulti "a"], false) /\ isis_unnumbered (fun af => String.eqb af "ipv4") true l = ([UFamily "ipv6"], false)
  /\ isis_unnumbered (fun _ => true) true l = ([], true).
Proof. repeat split; reflexivity. Qed.

(* ------------------------------------------------------------------ *)
(* C234: OSPF attributes of nodes                                       *)

Lemma copy_get : forall (ospf : dict val) copy vo k, dget k (fold_left (copy_attr ospf) copy vo) =
  match dget k vo with Some v => Some v | None => if memS k copy then dget k ospf else None end.
Proof.
  intros ospf. induction copy as [|c r IH]; intros vo k; cbn [fold_left].
  - cbn. destruct (dget k vo); reflexivity.
  - rewrite IH. unfold copy_attr at 1. assert (M : memS k (c :: r) = String.eqb k c || memS k r).
    { destruct (memS k (c :: r)) eqn:A.
      - apply memS_true in A. symmetry. apply orb_true_iff. destruct A as [A|A]; [left; apply String.eqb_eq; symmetry; exact A|right; apply memS_true; exact A].
      - apply memS_false in A. symmetry. apply orb_false_iff. split; [apply String.eqb_neq; intros Q; apply A; left; symmetry; exact Q|apply memS_false; intros Q; apply A; right; exact Q]. }
    rewrite M. destruct (dget c ospf) as [x|] eqn:X.
    + unfold dmem. destruct (dget c vo) as [y|] eqn:Y.
      * destruct (dget k vo) as [v|] eqn:V; [reflexivity|]. destruct (String.eqb_spec k c) as [E|E]; [subst k; congruence|reflexivity].
      * destruct (String.eqb_spec k c) as [E|E].
        -- subst k. rewrite dget_dset_same, Y. cbn [orb]. rewrite X. reflexivity.
        -- rewrite dget_dset_other by exact E. reflexivity.
    + destruct (dget k vo) as [v|] eqn:V; [reflexivity|]. destruct (String.eqb_spec k c) as [E|E]; [|reflexivity]. subst k. rewrite X. cbn [orb]. destruct (memS c r); reflexivity.
Qed.

Lemma loopback_other : forall n k, k <> "loopback" -> dget k (loopback_area n) = dget k n.
Proof.
  intros n k N. unfold loopback_area. destruct (dget "loopback" n); [|reflexivity]. destruct (dget "area" (rdd "ospf" n)); [|reflexivity]. apply dget_dset_other. exact N.
Qed.

Lemma propagate_other : forall copy n k, k <> "vrfs" -> dget k (propagate_ospf copy n) = match dget "ospf" n with None => dget k n | Some _ => dget k (loopback_area n) end.
Proof.
  intros copy n k N. unfold propagate_ospf. destruct (dget "ospf" n); [|reflexivity]. cbv zeta. destruct (dget "vrfs" (loopback_area n)); [|reflexivity]. apply dget_dset_other. exact N.
Qed.

(* VRFs with OSPF data get the listed attributes they do not have; VRFs without OSPF data and other attributes of VRFs do not change *)
Theorem ospf_vrf_attributes : forall copy n o vs v vd, dget "ospf" n = Some (VDict o) -> dget "vrfs" n = Some (VDict vs) -> dget v vs = Some (VDict vd) ->
  exists vs' vd', dget "vrfs" (propagate_ospf copy n) = Some (VDict vs') /\ dkeys vs' = dkeys vs /\ dget v vs' = Some (VDict vd')
    /\ (forall k, k <> "ospf" -> dget k vd' = dget k vd)
    /\ (dget "ospf" vd = None -> vd' = vd)
    /\ (forall vo, dget "ospf" vd = Some (VDict vo) -> exists vo', dget "ospf" vd' = Some (VDict vo') /\
          forall k, (forall x, dget k vo = Some x -> dget k vo' = Some x)
                    /\ (dget k vo = None -> In k copy -> dget k vo' = dget k o)
                    /\ (dget k vo = None -> ~ In k copy -> dget k vo' = None)).
Proof.
  intros copy n o vs v vd GO GV GD. unfold propagate_ospf. rewrite GO. cbv zeta. rewrite (loopback_other n "vrfs") by discriminate. rewrite GV.
  exists (map (fun p => (fst p, VDict (vrf_ospf copy o (entries (snd p))))) vs), (vrf_ospf copy o vd).
  split; [apply dget_dset_same|]. split; [unfold dkeys; rewrite map_map; reflexivity|].
  split; [rewrite (dget_map_val (fun p => VDict (vrf_ospf copy o (entries (snd p)))) vs v), GD; reflexivity|]. unfold vrf_ospf. split; [|split].
  - intros k K. destruct (dget "ospf" vd); [|reflexivity]. apply dget_dset_other. exact K.
  - intros Q. rewrite Q. reflexivity.
  - intros vo Q. rewrite Q. cbn [entries]. exists (fold_left (copy_attr o) copy vo). split; [apply dget_dset_same|]. intros k. rewrite copy_get. split; [|split].
    + intros x X. rewrite X. reflexivity.
    + intros X I. rewrite X. apply memS_true in I. rewrite I. reflexivity.
    + intros X I. rewrite X. apply memS_false in I. rewrite I. reflexivity.
Qed.

(* the loopback gets the area of the node; nothing else outside VRFs changes *)
Theorem ospf_loopback_area : forall copy n,
  (forall k, k <> "vrfs" -> k <> "loopback" -> dget k (propagate_ospf copy n) = dget k n)
  /\ (dget "vrfs" n = None -> dget "vrfs" (propagate_ospf copy n) = None)
  /\ (dget "ospf" n = None -> propagate_ospf copy n = n)
  /\ (forall o lb a, dget "ospf" n = Some (VDict o) -> dget "loopback" n = Some (VDict lb) -> dget "area" o = Some a ->
        lookup ["loopback"; "ospf"; "area"] (VDict (propagate_ospf copy n)) = Some a
        /\ exists lb', dget "loopback" (propagate_ospf copy n) = Some (VDict lb') /\ (forall k, k <> "ospf" -> dget k lb' = dget k lb)
           /\ forall k, k <> "area" -> dget k (rdd "ospf" lb') = dget k (rdd "ospf" lb))
  /\ (forall o, dget "ospf" n = Some (VDict o) -> dget "area" o = None \/ dget "loopback" n = None -> dget "loopback" (propagate_ospf copy n) = dget "loopback" n).
Proof.
  intros copy n. split; [|split; [|split; [|split]]].
  - intros k K1 K2. rewrite propagate_other by exact K1. destruct (dget "ospf" n); [apply loopback_other; exact K2|reflexivity].
  - intros G. unfold propagate_ospf. destruct (dget "ospf" n); [|exact G]. cbv zeta. rewrite (loopback_other n "vrfs") by discriminate. rewrite G. rewrite (loopback_other n "vrfs") by discriminate. exact G.
  - intros G. unfold propagate_ospf. rewrite G. reflexivity.
  - intros o lb a GO GL GA.
    assert (E : dget "loopback" (propagate_ospf copy n) = Some (VDict (dset "ospf" (VDict (dset "area" a (rdd "ospf" lb))) lb))).
    { rewrite propagate_other by discriminate. rewrite GO. unfold loopback_area. rewrite GL. unfold rdd at 1, rd at 1. rewrite GO. cbn [entries]. rewrite GA. apply dget_dset_same. }
    split.
    + cbn [lookup]. rewrite E. cbn [lookup]. rewrite dget_dset_same. cbn [lookup]. rewrite dget_dset_same. destruct a; reflexivity.
    + eexists. split; [exact E|]. split; [intros k K; apply dget_dset_other; exact K|]. intros k K. unfold rdd at 1, rd at 1. rewrite dget_dset_same. cbn [entries]. apply dget_dset_other. exact K.
  - intros o GO H. rewrite propagate_other by discriminate. rewrite GO. unfold loopback_area. destruct (dget "loopback" n) as [lb|] eqn:GL; [|exact GL].
    destruct H as [H|H]; [|discriminate H]. unfold rdd at 1, rd at 1. rewrite GO. cbn [entries]. rewrite H. exact GL.
Qed.

(* an area configured on the loopback is replaced *)
Theorem loopback_area_kept_refuted : exists copy n, lookup ["loopback"; "ospf"; "area"] (VDict n) = Some (VStr "0.0.0.1")
  /\ lookup ["loopback"; "ospf"; "area"] (VDict (propagate_ospf copy n)) = Some (VStr "0.0.0.0").
Proof.
  exists ["area"], [("ospf", VDict [("area", VStr "0.0.0.0")]); ("loopback", VDict [("ospf", VDict [("area", VStr "0.0.0.1")])])]. split; reflexivity.
Qed.

Example ospf_propagate_case : propagate_ospf ["area"; "router_id"]
    [("ospf", VDict [("area", VStr "0.0.0.0"); ("router_id", VStr "10.0.0.1"); ("x", VInt 1)]); ("loopback", VDict [("ipv4", VBool true)]);
     ("vrfs", VDict [("a", VDict [("ospf", VDict [("area", VInt 3)])]); ("b", VDict [("id", VInt 2)])])] =
  [("ospf", VDict [("area", VStr "0.0.0.0"); ("router_id", VStr "10.0.0.1"); ("x", VInt 1)]);
   ("loopback", VDict [("ipv4", VBool true); ("ospf", VDict [("area", VStr "0.0.0.0")])]);
   ("vrfs", VDict [("a", VDict [("ospf", VDict [("area", VInt 3); ("router_id", VStr "10.0.0.1")])]); ("b", VDict [("id", VInt 2)])])].
Proof. reflexivity. Qed.

Print Assumptions link_interface_check_exact.
Print Assumptions vlan_cleanup_exact.
Print Assumptions vlan_cleanup_stable.
Print Assumptions node_vlan_cleanup.
Print Assumptions isis_unnumbered_exact.
Print Assumptions ospf_vrf_attributes.
Print Assumptions ospf_loopback_area.
Print Assumptions loopback_area_kept_refuted.
