(* Member links of VLAN trunks (netsim/modules/vlan.py) *)
From Coq Require Import String Ascii NArith ZArith Bool List Lia Sorting.
From Verif Require Import Base Box_Model Box_Props Vlan_Model Vlan_Props Vlink_Model Vlink_Props Vlinkrule_Props.
Import ListNotations.
Local Open Scope nat_scope.
Local Open Scope string_scope.
Local Open Scope list_scope.

(* ---- specification ---- *)

(* the attributes of a VLAN in a trunk dictionary *)
Definition entry (o : option val) (d : dict val) : Prop :=
  match o with
  | None => d = []
  | Some (VDict x) => d = x
  | Some x => truthy x = false /\ d = []
  end.

Definition trunk_entry (o : option val) (v : string) : option val :=
  match raw o "trunk" with Some (VDict tr) => dget v tr | _ => None end.

(* an attribute of the vlan dictionary *)
Definition vsub (d : dict val) (a : string) : option val := raw (dget "vlan" d) a.

Definition is_set (o : option val) : Prop := exists x, o = Some x /\ truthy x = true.

(* the first setting in a list, or the default value *)
Definition first_set (l : list (option val)) (dflt m : val) : Prop :=
  (exists p, nth_error l p = Some (Some m) /\ truthy m = true /\ forall q x, q < p -> nth_error l q = Some x -> ~ is_set x) \/
  ((forall x, In x l -> ~ is_set x) /\ m = dflt).

Definition node_vlan (t : vtp) (n v : string) : option (dict val) := match dget n (tv_nodes t) with Some nd => dget v (nd_vlans nd) | None => None end.
Definition attr_in (o : option (dict val)) (a : string) : option val := match o with Some d => dget a d | None => None end.

(* the forwarding mode of an interface in a VLAN: interface settings first *)
Definition fwd_mode (t : vtp) (n v : string) (own : list (option val)) (m : val) : Prop :=
  first_set (own ++ [attr_in (node_vlan t n v) "mode"; match dget n (tv_nodes t) with Some nd => nd_mode nd | None => None end;
                     attr_in (dget v (tv_vlans t)) "mode"; tv_mode t]) (VStr "irb") m.

(* a member interface *)
Record member (t : vtp) (v : string) (i : vif) (k : nat) (rt : bool) (d : dict val) : Prop := {
  mb_node : dget "node" d = Some (VStr (vf_node i));
  mb_index : dget "_selfloop_ifindex" d = Some (VInt (Z.of_nat k));
  mb_access : vsub d "access" = Some (VStr v);
  mb_entry : exists init, entry (trunk_entry (vf_vlan i) v) init /\
    (exists m, dget "_vlan_mode" d = Some m /\ fwd_mode t (vf_node i) v [dget "_vlan_mode" init; vsub init "mode"; raw (vf_vlan i) "mode"] m /\
       (m = VStr "bridge" -> dget "ipv4" d = Some (VBool false) /\ dget "ipv6" d = Some (VBool false)) /\
       (m <> VStr "bridge" -> dget "ipv4" d = dget "ipv4" init /\ dget "ipv6" d = dget "ipv6" init)) /\
    (rt = true -> vsub d "mode" = Some (VStr "route")) /\
    (rt = false -> is_set (vsub init "mode") -> vsub d "mode" = vsub init "mode") /\
    (rt = false -> ~ is_set (vsub init "mode") -> vsub d "mode" = match raw (vf_vlan i) "mode" with Some x => Some x | None => vsub init "mode" end) /\
    (forall a, a <> "access" -> a <> "mode" -> vsub d a = vsub init a) /\
    (forall a, ~ In a ["node"; "_selfloop_ifindex"; "vlan"; "_vlan_mode"; "ipv4"; "ipv6"] -> dget a d = dget a init)
}.

(* the members: the interfaces that have the VLAN in their trunk, in the same order *)
Inductive members (t : vtp) (v : string) (rt : bool) : nat -> list vif -> list (dict val) -> Prop :=
| ms_nil : forall k, members t v rt k [] []
| ms_skip : forall k i r ds, ~ trunk_has i v -> members t v rt k r ds -> members t v rt k (i :: r) ds
| ms_add : forall k i r d ds, trunk_has i v -> member t v i k rt d -> members t v rt (S k) r ds -> members t v rt k (i :: r) (d :: ds).

(* the prefixes in the VLANs of the member nodes that do not bridge *)
Definition usable (t : vtp) (v : string) (d : dict val) (nv : dict val) : Prop :=
  dget "_vlan_mode" d <> Some (VStr "bridge") /\ exists n, dget "node" d = Some (VStr n) /\ node_vlan t n v = Some nv.
Inductive prefixes (t : vtp) (v : string) : list (dict val) -> list (option val) -> Prop :=
| pf_nil : prefixes t v [] []
| pf_add : forall d nv ds ps, usable t v d nv -> prefixes t v ds ps -> prefixes t v (d :: ds) (dget "prefix" nv :: ps)
| pf_skip : forall d ds ps, (forall nv, ~ usable t v d nv) -> prefixes t v ds ps -> prefixes t v (d :: ds) ps.

(* the first prefix; when there is none, the last value *)
Definition chosen (p : option val) (ps : list (option val)) (o : option val) : Prop :=
  (exists x, o = Some x /\ truthy x = true /\ exists q, nth_error (p :: ps) q = Some o /\ forall r y, r < q -> nth_error (p :: ps) r = Some y -> ~ is_set y) \/
  ((forall y, In y (p :: ps) -> ~ is_set y) /\ o = last ps p).

(* an attribute of the global VLAN that is copied to its links *)
Definition glob (t : vtp) (v k : string) : option val :=
  match dget v (tv_vlans t) with Some g => if memS k (tv_skip t) then None else dget k g | None => None end.
Definition orv (a b : option val) : option val := match a with Some x => Some x | None => b end.

Record mlink_of (t : vtp) (l : vlk) (v : string) (idx : Z) (m : mlink) : Prop := {
  mk_attr : exists init, entry (trunk_entry (vk_vlan l) v) init /\
    let rt := forall d, In d (ml_ifs m) -> dget "_vlan_mode" d = Some (VStr "route") in
    dget "linkindex" (ml_data m) = orv (glob t v "linkindex") (Some (VInt idx)) /\
    dget "parentindex" (ml_data m) = orv (glob t v "parentindex") (Some (VInt (vk_index l))) /\
    dget "vlan_name" (ml_data m) = orv (glob t v "vlan_name") (Some (VStr v)) /\
    dget "_linkname" (ml_data m) = orv (glob t v "_linkname") (Some (VStr (vk_name l ++ "." ++ v))) /\
    dget "type" (ml_data m) = orv (glob t v "type") (Some (VStr "vlan_member")) /\
    dget "mode" (ml_data m) = glob t v "mode" /\
    (forall k, ~ In k ["linkindex"; "parentindex"; "vlan_name"; "_linkname"; "type"; "mode"; "vlan"; "prefix"] ->
       dget k (ml_data m) = orv (glob t v k) (dget k init)) /\
    (glob t v "vlan" = None ->
       vsub (ml_data m) "access" = Some (VStr v) /\
       (ml_ifs m <> [] /\ rt -> vsub (ml_data m) "mode" = Some (VStr "route")) /\
       (~ (ml_ifs m <> [] /\ rt) -> vsub (ml_data m) "mode" = orv (dget "mode" init) (vsub init "mode")) /\
       forall a, a <> "access" -> a <> "mode" -> vsub (ml_data m) a = vsub init a) /\
    (ml_ifs m <> [] /\ rt -> members t v true 0 (vk_ifs l) (ml_ifs m) /\ dget "prefix" (ml_data m) = orv (glob t v "prefix") (dget "prefix" init)) /\
    (~ (ml_ifs m <> [] /\ rt) -> members t v false 0 (vk_ifs l) (ml_ifs m) /\
       exists ps o, prefixes t v (ml_ifs m) ps /\ chosen (attr_in (dget v (tv_vlans t)) "prefix") ps o /\
         dget "prefix" (ml_data m) = match o with None | Some VNull => orv (glob t v "prefix") (dget "prefix" init) | Some p => Some p end)
}.

Definition slt (a b : string) : Prop := String.compare a b = Lt.

(* ---- lemmas ---- *)

Lemma first_true_spec : forall l, first_set l (VStr "irb") (first_true l).
Proof.
  induction l as [|o l IH]; cbn [first_true].
  - right. split; [intros x []|auto].
  - assert (SK : ~ is_set o -> first_set (o :: l) (VStr "irb") (first_true l)).
    { intros N. destruct IH as [[p [P [T F]]]|[F E]].
      - left. exists (S p). split; [auto|]. split; [auto|]. intros [|q] x Q X; cbn in X; [injection X as <-; auto|]. apply (F q); [lia|auto].
      - right. split; [|auto]. intros x [<-|X]; auto. }
    destruct o as [v|].
    + destruct (truthy v) eqn:T.
      * left. exists 0. split; [auto|]. split; [auto|]. intros q x Q. lia.
      * apply SK. intros [x [Q X]]. injection Q as <-. congruence.
    + apply SK. intros [x [Q _]]. discriminate Q.
Qed.

(* a setting that comes from the first of two places *)
Lemma first_set_or : forall a x y r dflt m, is_set x ->
  (first_set (a :: x :: r) dflt m <-> first_set (a :: x :: y :: r) dflt m).
Proof.
  intros a x y r dflt m [vx [-> TX]].
  assert (X : is_set (Some vx)) by (exists vx; auto). split; (intros [[p [P [T F]]]|[F E]]; [|exfalso; apply (F (Some vx)); cbn; auto]).
  - left. destruct p as [|[|p]].
    + exists 0. split; [exact P|]. split; [auto|]. intros q z Q. lia.
    + exists 1. split; [exact P|]. split; [auto|]. intros q z Q Z. assert (q = 0) by lia. subst q. apply (F 0); [lia|exact Z].
    + exfalso. apply (F 1 (Some vx)); [lia|auto|auto].
  - left. destruct p as [|[|p]].
    + exists 0. split; [exact P|]. split; [auto|]. intros q z Q. lia.
    + exists 1. split; [exact P|]. split; [auto|]. intros q z Q Z. assert (q = 0) by lia. subst q. apply (F 0); [lia|exact Z].
    + exfalso. apply (F 1 (Some vx)); [lia|auto|auto].
Qed.
Lemma first_set_skip : forall a x y r dflt m, ~ is_set x ->
  (first_set (a :: y :: r) dflt m <-> first_set (a :: x :: y :: r) dflt m).
Proof.
  intros a x y r dflt m NX. split.
  - intros [[p [P [T F]]]|[F E]].
    + left. destruct p as [|p].
      * exists 0. split; [exact P|]. split; [auto|]. intros q z Q. lia.
      * exists (S (S p)). split; [exact P|]. split; [auto|]. intros [|[|q]] z Q Z; cbn in Z.
        -- injection Z as <-. apply (F 0); [lia|auto].
        -- injection Z as <-. auto.
        -- apply (F (S q)); [lia|auto].
    + right. split; [|auto]. intros z [Z|[Z|Z]]; [apply F; now left|subst z; auto|apply F; now right].
  - intros [[p [P [T F]]]|[F E]].
    + left. destruct p as [|[|p]].
      * exists 0. split; [exact P|]. split; [auto|]. intros q z Q. lia.
      * exfalso. cbn in P. injection P as ->. apply NX. exists m. auto.
      * exists (S p). split; [exact P|]. split; [auto|]. intros [|q] z Q Z; cbn in Z.
        -- injection Z as <-. apply (F 0); [lia|auto].
        -- apply (F (S (S q))); [lia|auto].
    + right. split; [|auto]. intros z [Z|Z]; apply F; [now left|right; now right].
Qed.

Lemma set_vattr_spec : forall a v d d', set_vattr a v d = Some d' ->
  vsub d' a = Some v /\ (forall b, b <> a -> vsub d' b = vsub d b) /\ (forall k, k <> "vlan" -> dget k d' = dget k d) /\
  exists x, dget "vlan" d' = Some (VDict x).
Proof.
  intros a v d d' H. unfold set_vattr in H. unfold vsub. destruct (dget "vlan" d) as [[| | | | |x]|] eqn:D; try discriminate H; injection H as <-;
    rewrite dget_dset_same; cbn [raw].
  - split; [apply dget_dset_same|]. split; [intros b B; apply dget_dset_other; auto|]. split; [intros k K; apply dget_dset_other; auto|eauto].
  - split; [cbn; rewrite String.eqb_refl; auto|]. split; [|split; [intros k K; apply dget_dset_other; auto|eauto]].
    intros b B. cbn. destruct (String.eqb_spec b a); [contradiction|auto].
Qed.

Lemma dict_or_empty_spec : forall o d, dict_or_empty o = Some d -> entry o d.
Proof.
  intros o d H. unfold dict_or_empty in H. unfold entry. destruct o as [v|]; [|congruence].
  destruct v as [|b|z|s|l|x]; try congruence; cbn [truthy] in *;
    try (destruct b); try (destruct (negb (Z.eqb z 0))); try (destruct (negb (String.eqb s ""))); try (destruct l); try discriminate H;
    injection H as <-; auto.
Qed.

Lemma vget_set : forall o a, (exists x, vget o a = Some x /\ raw o a = Some x /\ is_set (raw o a)) \/ (vget o a = None /\ ~ is_set (raw o a)).
Proof.
  intros o a. rewrite vget_raw. destruct (raw o a) as [x|].
  - destruct (truthy x) eqn:T.
    + left. exists x. split; [auto|]. split; [auto|]. exists x. auto.
    + right. split; [auto|]. intros [y [Q Y]]. injection Q as <-. congruence.
  - right. split; [auto|]. intros [y [Q Y]]. discriminate Q.
Qed.

Lemma compute_mode_set : forall t n v saved im, v <> "" -> fwd_mode t n v [saved; im] (compute_mode t n (Some v) saved im).
Proof.
  intros t n v saved im V. unfold fwd_mode, compute_mode. destruct v as [|c s]; [congruence|].
  assert (E : match dget (String c s) (nd_vlans (node_of t n)) with Some d => dget "mode" d | None => None end = attr_in (node_vlan t n (String c s)) "mode").
  { unfold node_of, node_vlan, attr_in. destruct (dget n (tv_nodes t)) as [nd|]; auto. }
  assert (E2 : nd_mode (node_of t n) = match dget n (tv_nodes t) with Some nd => nd_mode nd | None => None end).
  { unfold node_of. destruct (dget n (tv_nodes t)); auto. }
  rewrite E, E2. apply first_true_spec.
Qed.

Lemma is_str_iff : forall s v, is_str s v = true <-> v = VStr s.
Proof.
  intros s v. unfold is_str. destruct v; split; try discriminate.
  - intros H. apply String.eqb_eq in H. congruence.
  - intros H. injection H as ->. apply String.eqb_refl.
Qed.

Lemma member_intf_spec : forall t init v i k d, v <> "" -> entry (trunk_entry (vf_vlan i) v) init ->
  member_intf t init v (vf_node i) (vattr_of "mode" i) k = Some d -> member t v i k false d.
Proof.
  intros t init v i k d NV EN H. unfold member_intf, bind in H. rewrite vattr_raw in H.
  set (d0 := dset "_selfloop_ifindex" (VInt (Z.of_nat k)) (dset "node" (VStr (vf_node i)) init)) in *.
  assert (S0 : forall a, vsub d0 a = vsub init a) by (intros a; unfold vsub, d0; rewrite !dget_dset_other by discriminate; auto).
  destruct (set_vattr "access" (VStr v) d0) as [d1|] eqn:A1; [|discriminate H]. apply set_vattr_spec in A1. destruct A1 as [A1 [A2 [A3 [x1 A4]]]].
  cbv zeta in H.
  destruct (match raw (vf_vlan i) "mode" with Some m => match vget (dget "vlan" d1) "mode" with Some _ => Some d1 | None => set_vattr "mode" m d1 end | None => Some d1 end) as [d2|] eqn:A5; [|discriminate H].
  assert (M1 : vsub d1 "mode" = vsub init "mode") by (rewrite A2 by discriminate; apply S0).
  assert (B : vsub d2 "access" = Some (VStr v) /\ (forall b, b <> "access" -> b <> "mode" -> vsub d2 b = vsub init b) /\
    (forall q, q <> "vlan" -> dget q d2 = dget q d0) /\
    (is_set (vsub init "mode") -> vsub d2 "mode" = vsub init "mode") /\
    (~ is_set (vsub init "mode") -> vsub d2 "mode" = match raw (vf_vlan i) "mode" with Some x => Some x | None => vsub init "mode" end)).
  { destruct (vget_set (dget "vlan" d1) "mode") as [[y [Y1 [Y2 Y3]]]|[Y1 Y2]]; rewrite Y1 in A5; fold (vsub d1 "mode") in *; rewrite M1 in *.
    - assert (D2 : d2 = d1) by (destruct (raw (vf_vlan i) "mode"); congruence). subst d2.
      split; [auto|]. split; [intros b B1 B2; rewrite A2, S0 by auto; auto|]. split; [auto|]. split; [auto|contradiction].
    - destruct (raw (vf_vlan i) "mode") as [m|].
      + apply set_vattr_spec in A5. destruct A5 as [P1 [P2 [P3 _]]]. split; [rewrite P2 by discriminate; auto|].
        split; [intros b B1 B2; rewrite P2, A2, S0 by auto; auto|]. split; [intros q Q; rewrite P3, A3 by auto; auto|]. split; [contradiction|auto].
      + injection A5 as <-. split; [auto|]. split; [intros b B1 B2; rewrite A2, S0 by auto; auto|]. split; [auto|]. split; [contradiction|auto]. }
  clear A1 A2 A3 A4 A5 M1. destruct B as [B1 [B2 [B3 [B4 B5]]]].
  set (m := compute_mode t (vf_node i) (Some v) (dget "_vlan_mode" d2) (vget (dget "vlan" d2) "mode")) in *.
  assert (SV : dget "_vlan_mode" d2 = dget "_vlan_mode" init) by (rewrite B3 by discriminate; unfold d0; rewrite !dget_dset_other by discriminate; auto).
  assert (FM : fwd_mode t (vf_node i) v [dget "_vlan_mode" init; vsub init "mode"; raw (vf_vlan i) "mode"] m).
  { pose proof (compute_mode_set t (vf_node i) v (dget "_vlan_mode" d2) (vget (dget "vlan" d2) "mode") NV) as C. fold m in C. rewrite SV in C.
    unfold fwd_mode in *. cbn [app] in *.
    assert (C' : first_set [dget "_vlan_mode" init; vsub d2 "mode"; attr_in (node_vlan t (vf_node i) v) "mode";
        match dget (vf_node i) (tv_nodes t) with Some nd => nd_mode nd | None => None end; attr_in (dget v (tv_vlans t)) "mode"; tv_mode t] (VStr "irb") m).
    { destruct (vget_set (dget "vlan" d2) "mode") as [[y [Y1 [Y2 Y3]]]|[Y1 Y2]]; rewrite Y1 in C; fold (vsub d2 "mode") in *.
      - rewrite Y2. exact C.
      - apply first_set_skip; [exact Y2|]. apply (first_set_skip _ None) in C; auto. intros [x [Q _]]; discriminate Q. }
    clear C. assert (DI : is_set (vsub init "mode") \/ ~ is_set (vsub init "mode"))
      by (unfold vsub; destruct (vget_set (dget "vlan" init) "mode") as [[? [_ [_ Q]]]|[_ Q]]; auto).
    destruct DI as [DI|DI].
    - rewrite (B4 DI) in C'. apply first_set_or; auto.
    - apply first_set_skip; [exact DI|]. rewrite (B5 DI) in C'. destruct (raw (vf_vlan i) "mode") as [w|]; [exact C'|].
      apply first_set_skip; [intros [x [Q _]]; discriminate Q|]. apply first_set_skip in C'; auto. }
  injection H as <-. clearbody m.
  set (d3 := dset "_vlan_mode" m d2).
  assert (G : forall a, ~ In a ["ipv4"; "ipv6"] -> dget a (if is_str "bridge" m then dset "ipv6" (VBool false) (dset "ipv4" (VBool false) d3) else d3) = dget a d3).
  { intros a A. destruct (is_str "bridge" m); [|auto]. rewrite !dget_dset_other; [auto|intros ->|intros ->]; apply A; cbn; auto. }
  assert (G2 : forall a, a <> "_vlan_mode" -> dget a d3 = dget a d2) by (intros a A; unfold d3; apply dget_dset_other; auto).
  assert (GV : forall a, vsub (if is_str "bridge" m then dset "ipv6" (VBool false) (dset "ipv4" (VBool false) d3) else d3) a = vsub d2 a).
  { intros a. unfold vsub. rewrite G, G2; [auto|discriminate|cbn; intuition discriminate]. }
  constructor.
  - rewrite G, G2, B3; try discriminate; [|cbn; intuition discriminate]. unfold d0. rewrite dget_dset_other by discriminate. apply dget_dset_same.
  - rewrite G, G2, B3; try discriminate; [|cbn; intuition discriminate]. unfold d0. apply dget_dset_same.
  - rewrite GV. exact B1.
  - exists init. split; [exact EN|]. split.
    + exists m. split; [rewrite G by (cbn; intuition discriminate); unfold d3; apply dget_dset_same|]. split; [exact FM|]. split.
      * intros M. apply is_str_iff in M. rewrite M. split; [rewrite dget_dset_other by discriminate|]; apply dget_dset_same.
      * intros M. destruct (is_str "bridge" m) eqn:BR; [apply is_str_iff in BR; contradiction|].
        rewrite !G2, !B3 by discriminate. unfold d0. rewrite !dget_dset_other by discriminate. auto.
    + split; [discriminate|]. split; [intros _ S; rewrite GV; auto|]. split; [intros _ S; rewrite GV; auto|].
      split; [intros a A1 A2; rewrite GV; auto|]. intros a A. cbn in A.
      rewrite G, G2, B3; [|intros ->; intuition|intros ->; intuition|cbn; intuition]. unfold d0. rewrite !dget_dset_other; [auto|intros ->; intuition|intros ->; intuition].
Qed.


(* ---- names of the VLANs ---- *)

Lemma slt_trans : forall a b c, slt a b -> slt b c -> slt a c.
Proof.
  unfold slt. induction a as [|x a IH]; intros b c H1 H2.
  - destruct b as [|y b]; [discriminate H1|]. destruct c as [|z c]; [discriminate H2|auto].
  - destruct b as [|y b]; [discriminate H1|]. destruct c as [|z c]; [discriminate H2|]. cbn in *. unfold Ascii.compare in *.
    destruct (N.compare_spec (Ascii.N_of_ascii x) (Ascii.N_of_ascii y)) as [E1|E1|E1]; [| |discriminate H1];
    destruct (N.compare_spec (Ascii.N_of_ascii y) (Ascii.N_of_ascii z)) as [E2|E2|E2]; try discriminate H2;
    destruct (N.compare_spec (Ascii.N_of_ascii x) (Ascii.N_of_ascii z)) as [E3|E3|E3]; auto; try lia. eauto.
Qed.
Lemma slt_irrefl : forall a, ~ slt a a.
Proof. intros a H. unfold slt in H. pose proof (String.compare_antisym a a) as E. rewrite H in E. discriminate E. Qed.
Lemma compare_gt : forall a b, String.compare a b = Gt -> slt b a.
Proof. intros a b H. unfold slt. rewrite String.compare_antisym, H. auto. Qed.

Lemma insert_slt : forall x l, StronglySorted slt l -> StronglySorted slt (insert_sorted x l).
Proof.
  intros x l H. induction H as [|y l H IH F]; cbn [insert_sorted].
  - repeat constructor.
  - destruct (String.compare x y) eqn:E.
    + constructor; auto.
    + constructor; [constructor; auto|]. constructor; [exact E|]. eapply Forall_impl; [|exact F]. intros z Z. eapply slt_trans; eauto.
    + constructor; [exact IH|]. apply Forall_forall. intros z Z. apply insert_sorted_In in Z. destruct Z as [->|Z]; [apply compare_gt; auto|].
      rewrite Forall_forall in F. auto.
Qed.
Lemma sorted_set_slt : forall l, StronglySorted slt (sorted_set l).
Proof.
  intros l. unfold sorted_set. assert (G : forall acc, StronglySorted slt acc -> StronglySorted slt (fold_left (fun acc x => insert_sorted x acc) l acc)).
  { induction l as [|x l IH]; intros acc A; cbn [fold_left]; [auto|]. apply IH. apply insert_slt. auto. }
  apply G. constructor.
Qed.
Lemma filter_slt : forall (f : string -> bool) l, StronglySorted slt l -> StronglySorted slt (filter f l).
Proof.
  intros f l H. induction H as [|y l H IH F]; cbn [filter]; [constructor|]. destruct (f y); [|auto]. constructor; [auto|].
  apply Forall_forall. intros z Z. apply filter_In in Z. rewrite Forall_forall in F. apply F. tauto.
Qed.

(* ---- members ---- *)

Lemma trunk_lookup : forall i v, match vattr_of "trunk" i with Some tr => lookup [v] tr | None => None end = trunk_entry (vf_vlan i) v.
Proof.
  intros i v. rewrite vattr_raw. unfold trunk_entry. destruct (raw (vf_vlan i) "trunk") as [[| | | | |tr]|]; auto. cbn. destruct (dget v tr); auto.
Qed.

Lemma node_vlan_of : forall t n v, dget v (nd_vlans (node_of t n)) = node_vlan t n v.
Proof. intros t n v. unfold node_of, node_vlan. destruct (dget n (tv_nodes t)); auto. Qed.

Lemma chosen_step : forall p q ps o, (is_set p -> chosen p ps o) -> (~ is_set p -> chosen q ps o) -> chosen p (q :: ps) o.
Proof.
  intros p q ps o H1 H2. assert (D : is_set p \/ ~ is_set p).
  { destruct p as [x|]; [|right; intros [y [Q _]]; discriminate Q]. destruct (truthy x) eqn:T; [left; exists x; auto|].
    right. intros [y [Q Y]]. injection Q as <-. congruence. }
  destruct D as [D|D].
  - destruct (H1 D) as [[x [O [T [k [K F]]]]]|[F _]]; [|exfalso; apply (F p); [now left|auto]].
    left. exists x. split; [auto|]. split; [auto|]. destruct k as [|k]; [exists 0; split; [auto|intros r y R; lia]|].
    exfalso. apply (F 0 p); [lia|auto|auto].
  - destruct (H2 D) as [[x [O [T [k [K F]]]]]|[F E]].
    + left. exists x. split; [auto|]. split; [auto|]. exists (S k). split; [exact K|].
      intros [|r] y R Y; [cbn in Y; injection Y as <-; auto|]. apply (F r); [lia|auto].
    + right. split; [intros y [<-|Y]; auto|]. rewrite E. clear. revert q. induction ps as [|a ps IH]; intros q; [auto|].
      change (last (q :: a :: ps) p) with (last (a :: ps) p). clear IH. revert a. induction ps as [|b ps IH]; intros a; [auto|]. 
      change (last (a :: b :: ps) q) with (last (b :: ps) q). change (last (a :: b :: ps) p) with (last (b :: ps) p). auto.
Qed.

Lemma member_ifs_spec : forall t v l k p ds o, v <> "" -> member_ifs t v l k p = Some (ds, o) ->
  members t v false k l ds /\ exists ps, prefixes t v ds ps /\ chosen p ps o.
Proof.
  intros t v. induction l as [|i l IH]; intros k p ds o NV H; cbn [member_ifs] in H.
  - injection H as <- <-. split; [constructor|]. exists []. split; [constructor|].
    destruct p as [x|].
    + destruct (truthy x) eqn:T.
      * left. exists x. split; [auto|]. split; [auto|]. exists 0. split; [auto|]. intros r y R. lia.
      * right. split; [|auto]. intros y [<-|[]] [z [Q Z]]. injection Q as <-. congruence.
    + right. split; [|auto]. intros y [<-|[]] [z [Q _]]. discriminate Q.
  - destruct (in_trunk v i) eqn:IT.
    + rewrite trunk_lookup in H. unfold bind in H. destruct (dict_or_empty (trunk_entry (vf_vlan i) v)) as [init|] eqn:DE; [|discriminate H].
      destruct (member_intf t init v (vf_node i) (vattr_of "mode" i) k) as [d|] eqn:MI; [|discriminate H].
      cbv zeta in H. rewrite node_vlan_of in H.
      match type of H with match member_ifs _ _ _ _ ?p' with _ => _ end = _ => set (p1 := p') in *; destruct (member_ifs t v l (S k) p1) as [[ds' o']|] eqn:R; [|discriminate H] end.
      cbn [fst snd] in H. injection H as <- <-. apply IH in R; [|auto]. destruct R as [R [ps [P C]]].
      apply dict_or_empty_spec in DE. pose proof (member_intf_spec _ _ _ _ _ _ NV DE MI) as M.
      split; [apply ms_add; auto; apply in_trunk_iff; auto|].
      assert (BR : forall b, match dget "_vlan_mode" d with Some m => is_str "bridge" m | None => false end = b -> (b = true <-> dget "_vlan_mode" d = Some (VStr "bridge"))).
      { intros b <-. destruct (dget "_vlan_mode" d) as [m|]; [rewrite is_str_iff|]; split; congruence. }
      destruct (match dget "_vlan_mode" d with Some m => is_str "bridge" m | None => false end) eqn:B; specialize (BR _ eq_refl).
      * exists ps. split; [apply pf_skip; [|exact P]; intros nv [U _]; apply U; apply BR; auto|].
        subst p1. destruct p as [x|]; [|destruct (node_vlan t (vf_node i) v); exact C].
        destruct (truthy x); [exact C|]. destruct (node_vlan t (vf_node i) v); exact C.
      * destruct (node_vlan t (vf_node i) v) as [nv|] eqn:NVL.
        -- exists (dget "prefix" nv :: ps). split.
           ++ apply pf_add; [|exact P]. split; [intros Q; apply BR in Q; discriminate Q|]. exists (vf_node i). split; [apply M|auto].
           ++ apply chosen_step; intros S; subst p1.
              ** destruct S as [x [-> X]]. rewrite X in C. exact C.
              ** destruct p as [x|]; [|exact C]. destruct (truthy x) eqn:T; [|exact C]. exfalso. apply S. exists x. auto.
        -- exists ps. split.
           ++ apply pf_skip; [|exact P]. intros nv [_ [n [U1 U2]]]. rewrite (mb_node _ _ _ _ _ _ M) in U1. injection U1 as <-. congruence.
           ++ subst p1. destruct p as [x|]; [|exact C]. destruct (truthy x); exact C.
    + apply IH in H; [|auto]. destruct H as [H1 H2]. split; [|exact H2]. apply ms_skip; [|exact H1]. intros T. apply in_trunk_iff in T. congruence.
Qed.

Lemma set_mode_member : forall t v i k d d', member t v i k false d -> set_vattr "mode" (VStr "route") d = Some d' -> member t v i k true d'.
Proof.
  intros t v i k d d' [M1 M2 M3 [init [E1 [E2 [E3 [E4 [E5 [E6 E7]]]]]]]] S. apply set_vattr_spec in S. destruct S as [S1 [S2 [S3 _]]].
  constructor.
  - rewrite S3 by discriminate. auto.
  - rewrite S3 by discriminate. auto.
  - rewrite S2 by discriminate. auto.
  - exists init. split; [auto|]. split; [rewrite !S3 by discriminate; exact E2|]. split; [auto|]. split; [discriminate|]. split; [discriminate|].
    split; [intros a A1 A2; rewrite S2 by auto; auto|]. intros a A. rewrite S3; [auto|intros ->; apply A; cbn; auto].
Qed.

Lemma set_mode_members : forall t v k l ds, members t v false k l ds -> forall ds', all_some (map (set_vattr "mode" (VStr "route")) ds) = Some ds' ->
  members t v true k l ds' /\ Forall2 (fun d d' => dget "_vlan_mode" d' = dget "_vlan_mode" d) ds ds'.
Proof.
  intros t v k l ds H. induction H as [k|k i r ds N H IH|k i r d ds N M H IH]; intros ds' A.
  - injection A as <-. split; constructor.
  - apply IH in A. destruct A as [A1 A2]. split; [apply ms_skip; auto|auto].
  - cbn [map all_some] in A. destruct (set_vattr "mode" (VStr "route") d) as [d'|] eqn:S; [|discriminate A].
    destruct (all_some (map (set_vattr "mode" (VStr "route")) ds)) as [y|] eqn:Y; [|discriminate A]. injection A as <-.
    destruct (IH y eq_refl) as [A1 A2]. split; [apply ms_add; auto; eapply set_mode_member; eauto|]. constructor; [|auto].
    apply set_vattr_spec in S. apply S. discriminate.
Qed.

Lemma member_mode : forall t v i k d rt, member t v i k rt d -> exists m, dget "_vlan_mode" d = Some m /\ m <> VNull.
Proof.
  intros t v i k d rt [_ _ _ [init [_ [[m [M [F _]]] _]]]]. exists m. split; [auto|]. intros ->. destruct F as [[p [_ [T _]]]|[_ Q]]; discriminate.
Qed.

Lemma routed_iff : forall t v k l ds, members t v false k l ds ->
  (routed (map (dget "_vlan_mode") ds) = true <-> ds <> [] /\ forall d, In d ds -> dget "_vlan_mode" d = Some (VStr "route")).
Proof.
  intros t v k l ds H. assert (MM : forall d, In d ds -> exists m, dget "_vlan_mode" d = Some m /\ m <> VNull).
  { induction H as [k|k i r ds N H IH|k i r d ds N M H IH]; [intros d []|auto|]. intros d' [<-|I]; [eapply member_mode; eauto|auto]. }
  clear H k l. unfold routed. cbv zeta.
  assert (FA : forallb (is_str "route") (flat_map (fun o => match o with Some VNull => [] | Some m => [m] | None => [] end) (map (dget "_vlan_mode") ds)) = true
     <-> forall d, In d ds -> dget "_vlan_mode" d = Some (VStr "route")).
  { induction ds as [|d ds IH]; [split; [intros _ d []|auto]|]. cbn [map flat_map]. rewrite forallb_app, andb_true_iff, IH by (intros x X; apply MM; now right).
    destruct (MM d) as [m [E N]]; [now left|]. rewrite E. assert (Q : forallb (is_str "route") match m with VNull => [] | _ => [m] end = true <-> m = VStr "route").
    { destruct m; try congruence; cbn [forallb]; rewrite andb_true_r; apply is_str_iff. }
    split.
    - intros [A B] x [<-|X]; [rewrite E; f_equal; apply Q; exact A|auto].
    - intros A. split; [|intros x X; apply A; now right]. apply Q. specialize (A d (or_introl eq_refl)). congruence. }
  destruct ds as [|d ds].
  - cbn. split; [discriminate|]. intros [Q _]. congruence.
  - destruct (flat_map (fun o => match o with Some VNull => [] | Some m => [m] | None => [] end) (map (dget "_vlan_mode") (d :: ds))) as [|a r] eqn:FM.
    + exfalso. destruct (MM d) as [m [E N]]; [now left|]. cbn [map flat_map] in FM. rewrite E in FM. destruct m; try congruence; discriminate FM.
    + rewrite FA. split; [intros A; split; [discriminate|auto]|intros [_ A]; auto].
Qed.

Lemma fix_mode_spec : forall d d', fix_mode d = Some d' ->
  dget "mode" d' = None /\ vsub d' "mode" = orv (dget "mode" d) (vsub d "mode") /\ (forall a, a <> "mode" -> vsub d' a = vsub d a) /\
  forall k, k <> "mode" -> k <> "vlan" -> dget k d' = dget k d.
Proof.
  intros d d' H. unfold fix_mode, bind in H. destruct (dget "mode" d) as [m|] eqn:M.
  - destruct (set_vattr "mode" m d) as [x|] eqn:S; [|discriminate H]. injection H as <-. apply set_vattr_spec in S. destruct S as [S1 [S2 [S3 _]]].
    unfold vsub in *. split; [apply dget_dpop_same|]. split; [rewrite dget_dpop_other by discriminate; exact S1|].
    split; [intros a A; rewrite dget_dpop_other by discriminate; auto|]. intros k K1 K2. rewrite dget_dpop_other by auto. auto.
  - injection H as <-. split; [auto|]. split; [auto|]. split; auto.
Qed.

Lemma add_global_spec : forall t v d k, (forall g, dget v (tv_vlans t) = Some g -> NoDup (dkeys g)) ->
  dget k (add_global t v d) = orv (glob t v k) (dget k d).
Proof.
  intros t v d k ND. unfold add_global, glob. destruct (dget v (tv_vlans t)) as [g|]; [|auto]. specialize (ND g eq_refl).
  revert d ND. induction g as [|[k0 v0] g IH]; intros d ND; cbn [fold_left].
  - destruct (memS k (tv_skip t)); auto.
  - change (dkeys ((k0, v0) :: g)) with (k0 :: dkeys g) in ND. inversion ND as [|? ? N1 N2]; subst. rewrite IH by auto. cbn [fst snd dget].
    destruct (String.eqb_spec k k0) as [->|N].
    + destruct (memS k0 (tv_skip t)); [auto|]. assert (Z : dget k0 g = None) by (apply dget_None; auto). rewrite Z. cbn [orv]. apply dget_dset_same.
    + destruct (memS k0 (tv_skip t)).
      * destruct (memS k (tv_skip t)); auto.
      * rewrite dget_dset_other by auto. destruct (memS k (tv_skip t)); auto.
Qed.

Lemma vsub_global : forall t v d a, (forall g, dget v (tv_vlans t) = Some g -> NoDup (dkeys g)) -> glob t v "vlan" = None -> vsub (add_global t v d) a = vsub d a.
Proof. intros t v d a ND G. unfold vsub. rewrite add_global_spec, G by auto. auto. Qed.

Definition kept : list string := ["linkindex"; "parentindex"; "vlan_name"; "_linkname"; "type"; "mode"; "vlan"].

Lemma link_data_spec : forall t init v par idx d, (forall g, dget v (tv_vlans t) = Some g -> NoDup (dkeys g)) ->
  link_data t init v par idx = Some d ->
  dget "linkindex" d = orv (glob t v "linkindex") (Some (VInt idx)) /\
  dget "parentindex" d = orv (glob t v "parentindex") (Some par) /\
  dget "vlan_name" d = orv (glob t v "vlan_name") (Some (VStr v)) /\
  dget "type" d = orv (glob t v "type") (Some (VStr "vlan_member")) /\
  dget "mode" d = glob t v "mode" /\
  (forall k, ~ In k ["linkindex"; "parentindex"; "vlan_name"; "type"; "mode"; "vlan"] -> dget k d = orv (glob t v k) (dget k init)) /\
  (glob t v "vlan" = None -> vsub d "access" = Some (VStr v) /\ vsub d "mode" = orv (dget "mode" init) (vsub init "mode") /\
     forall a, a <> "access" -> a <> "mode" -> vsub d a = vsub init a).
Proof.
  intros t init v par idx d ND H. unfold link_data, bind in H.
  destruct (set_vattr "access" (VStr v) (dset "parentindex" par (dset "linkindex" (VInt idx) init))) as [d1|] eqn:S; [|discriminate H].
  destruct (fix_mode (dset "type" (VStr "vlan_member") (dset "vlan_name" (VStr v) d1))) as [d2|] eqn:F; [|discriminate H]. injection H as <-.
  apply set_vattr_spec in S. destruct S as [S1 [S2 [S3 _]]]. apply fix_mode_spec in F. destruct F as [F1 [F2 [F3 F4]]].
  assert (VS : forall a, vsub (dset "type" (VStr "vlan_member") (dset "vlan_name" (VStr v) d1)) a = vsub d1 a)
    by (intros a; unfold vsub; rewrite !dget_dset_other by discriminate; auto).
  assert (VI : forall a, vsub (dset "parentindex" par (dset "linkindex" (VInt idx) init)) a = vsub init a)
    by (intros a; unfold vsub; rewrite !dget_dset_other by discriminate; auto).
  assert (K : forall k, k <> "mode" -> k <> "vlan" -> dget k (add_global t v d2) = orv (glob t v k) (dget k (dset "type" (VStr "vlan_member") (dset "vlan_name" (VStr v) d1)))).
  { intros k K1 K2. rewrite add_global_spec, F4 by auto. auto. }
  split; [|split; [|split; [|split; [|split; [|split]]]]].
  - rewrite K by discriminate. rewrite !dget_dset_other by discriminate. rewrite S3 by discriminate. rewrite dget_dset_other by discriminate. rewrite dget_dset_same. auto.
  - rewrite K by discriminate. rewrite !dget_dset_other by discriminate. rewrite S3 by discriminate. rewrite dget_dset_same. auto.
  - rewrite K by discriminate. rewrite dget_dset_other by discriminate. rewrite dget_dset_same. auto.
  - rewrite K by discriminate. rewrite dget_dset_same. auto.
  - rewrite add_global_spec, F1 by auto. destruct (glob t v "mode"); auto.
  - intros k N. cbn in N. rewrite K by (intros ->; tauto). rewrite !dget_dset_other by (intros ->; tauto). rewrite S3 by (intros ->; tauto).
    rewrite !dget_dset_other by (intros ->; tauto). auto.
  - intros G. rewrite !vsub_global by auto. split; [rewrite F3, VS by discriminate; auto|]. split.
    + rewrite F2, VS, S2, VI by discriminate. rewrite !dget_dset_other by discriminate. rewrite S3 by discriminate. rewrite !dget_dset_other by discriminate. auto.
    + intros a A1 A2. rewrite vsub_global, F3, VS, S2, VI by auto. auto.
Qed.

Lemma link_entry : forall l v, match vk_vlan l with Some lv => lookup ["trunk"; v] lv | None => None end = trunk_entry (vk_vlan l) v.
Proof.
  intros l v. unfold trunk_entry, raw. destruct (vk_vlan l) as [[| | | | |d]|]; auto. cbn. destruct (dget "trunk" d) as [[| | | | |tr]|]; auto. destruct (dget v tr); auto.
Qed.

Lemma member_link_spec : forall t l v idx m, v <> "" -> (forall g, dget v (tv_vlans t) = Some g -> NoDup (dkeys g)) ->
  member_link t l v idx = Some m -> mlink_of t l v idx m.
Proof.
  intros t l v idx m NV ND H. unfold member_link, bind in H. rewrite link_entry in H.
  destruct (dict_or_empty (trunk_entry (vk_vlan l) v)) as [init|] eqn:DE; [|discriminate H]. apply dict_or_empty_spec in DE.
  destruct (link_data t (dset "_linkname" (VStr (vk_name l ++ "." ++ v)) init) v (VInt (vk_index l)) idx) as [d|] eqn:LD; [|discriminate H].
  apply link_data_spec in LD; [|auto]. destruct LD as [L1 [L2 [L3 [L4 [L5 [L6 L7]]]]]].
  destruct (member_ifs t v (vk_ifs l) 0 match dget v (tv_vlans t) with Some g => dget "prefix" g | None => None end) as [[ifs pfx]|] eqn:MI; [|discriminate H].
  apply member_ifs_spec in MI; [|auto]. destruct MI as [MB [ps [PS CH]]]. pose proof (routed_iff _ _ _ _ _ MB) as RT.
  assert (LN : dget "_linkname" d = orv (glob t v "_linkname") (Some (VStr (vk_name l ++ "." ++ v)))).
  { rewrite L6 by (cbn; intuition discriminate). rewrite dget_dset_same. auto. }
  assert (LK : forall k, ~ In k ["linkindex"; "parentindex"; "vlan_name"; "_linkname"; "type"; "mode"; "vlan"] -> dget k d = orv (glob t v k) (dget k init)).
  { intros k N. rewrite L6 by (intros I; apply N; cbn in *; tauto). rewrite dget_dset_other; [auto|]. intros ->. apply N. cbn. tauto. }
  assert (LV : glob t v "vlan" = None -> vsub d "access" = Some (VStr v) /\ vsub d "mode" = orv (dget "mode" init) (vsub init "mode") /\
     forall a, a <> "access" -> a <> "mode" -> vsub d a = vsub init a).
  { intros G. destruct (L7 G) as [A1 [A2 A3]]. unfold vsub in *. rewrite !dget_dset_other in A2 by discriminate.
    split; [auto|]. split; [auto|]. intros a B1 B2. rewrite A3 by auto. rewrite dget_dset_other by discriminate. auto. }
  clear L6 L7. destruct (routed (map (dget "_vlan_mode") ifs)) eqn:R.
  - destruct (set_vattr "mode" (VStr "route") d) as [d'|] eqn:S; [|discriminate H].
    destruct (all_some (map (set_vattr "mode" (VStr "route")) ifs)) as [ifs'|] eqn:AS; [|discriminate H]. injection H as <-.
    destruct (set_mode_members _ _ _ _ _ MB _ AS) as [MB' F2]. apply set_vattr_spec in S. destruct S as [S1 [S2 [S3 _]]].
    assert (RT' : ifs' <> [] /\ forall x, In x ifs' -> dget "_vlan_mode" x = Some (VStr "route")).
    { destruct (proj1 RT eq_refl) as [R1 R2]. clear - F2 R1 R2. split.
      - intros ->. inversion F2; subst. congruence.
      - clear R1. induction F2 as [|x y r s E F2 IH]; intros z []; [subst z; rewrite E; apply R2; now left|]. apply IH; [|auto]. intros q Q. apply R2. now right. }
    constructor. exists init. split; [auto|]. cbn [ml_data ml_ifs]. cbv zeta. rewrite !S3 by discriminate.
    split; [auto|]. split; [auto|]. split; [auto|]. split; [auto|]. split; [auto|]. split; [auto|].
    split; [intros k N; cbn in N; rewrite S3 by (intros ->; tauto); apply LK; cbn; tauto|].
    split.
    { intros G. destruct (LV G) as [A1 [A2 A3]]. split; [rewrite S2 by discriminate; auto|]. split; [auto|]. split; [tauto|]. intros a B1 B2. rewrite S2 by auto. auto. }
    split; [|tauto]. intros _. split; [auto|]. apply LK. cbn. intuition discriminate.
  - injection H as <-.
    assert (NR : ~ (ifs <> [] /\ forall x, In x ifs -> dget "_vlan_mode" x = Some (VStr "route"))) by (intros Q; apply RT in Q; discriminate Q).
    assert (PF : forall p, dget "prefix" (match p with Some VNull => d | Some p => dset "prefix" p d | None => d end) =
       match p with None | Some VNull => orv (glob t v "prefix") (dget "prefix" init) | Some p => Some p end).
    { assert (B : dget "prefix" d = orv (glob t v "prefix") (dget "prefix" init)) by (apply LK; cbn; intuition discriminate).
      intros [[| | | | |]|]; auto; apply dget_dset_same. }
    assert (OT : forall k p, k <> "prefix" -> dget k (match p with Some VNull => d | Some p => dset "prefix" p d | None => d end) = dget k d).
    { intros k p K. destruct p as [[| | | | |]|]; auto; apply dget_dset_other; auto. }
    constructor. exists init. split; [auto|]. cbn [ml_data ml_ifs]. cbv zeta. rewrite !OT by discriminate.
    split; [auto|]. split; [auto|]. split; [auto|]. split; [auto|]. split; [auto|]. split; [auto|].
    split; [intros k N; cbn in N; rewrite OT by (intros ->; tauto); apply LK; cbn; tauto|].
    split.
    { intros G. destruct (LV G) as [A1 [A2 A3]]. unfold vsub. rewrite OT by discriminate. fold (vsub d "access"). fold (vsub d "mode"). fold (vsub init "mode").
      split; [auto|]. split; [tauto|]. split; [auto|]. intros a B1 B2. fold (vsub d a). fold (vsub init a). auto. }
    split; [tauto|]. intros _. split; [auto|]. exists ps, pfx. split; [auto|]. split; [exact CH|]. apply PF.
Qed.

(* ---- the member links of a trunk ---- *)

Lemma member_links_nth : forall t l names idx ms, member_links t l names idx = Some ms ->
  length ms = length names /\
  forall p v, nth_error names p = Some v -> exists m, nth_error ms p = Some m /\ member_link t l v (idx + Z.of_nat p) = Some m.
Proof.
  intros t l. induction names as [|v names IH]; intros idx ms H; cbn [member_links] in H; unfold bind in H.
  - injection H as <-. split; [auto|]. intros [|p] v Q; discriminate Q.
  - destruct (member_link t l v idx) as [m|] eqn:M; [|discriminate H]. destruct (member_links t l names (idx + 1)) as [r|] eqn:R; [|discriminate H].
    injection H as <-. apply IH in R. destruct R as [R1 R2]. split; [cbn [length]; lia|]. intros [|p] w Q; cbn [nth_error] in *.
    + injection Q as <-. exists m. split; [auto|]. rewrite Z.add_0_r. auto.
    + destruct (R2 _ _ Q) as [m' [M1 M2]]. exists m'. split; [auto|]. rewrite <- M2. f_equal. lia.
Qed.

Lemma trunk_names : forall t l0 l1 va e, check_link t l0 = (l1, va, true, e) ->
  let native := match colist "native" va with x :: _ => Some x | [] => None end in
  let names := filter (fun v => match native with Some x => negb (String.eqb v x) | None => true end) (sorted_set (colist "trunk" va)) in
  StronglySorted slt names /\ forall v, In v names <-> vlan_used "trunk" l0 v /\ ~ first_native l0 v.
Proof.
  intros t l0 l1 va e CH native names. split; [apply filter_slt, sorted_set_slt|]. intros v. unfold names. rewrite filter_In.
  unfold sorted_set. rewrite fold_insert_In. rewrite (colist_In _ _ _ _ _ "trunk" v CH) by (cbn; auto). cbn [In].
  pose proof (link_vlan_errors_exact _ _ _ _ _ _ CH) as [_ [AC _]]. pose proof (proj1 AC eq_refl) as ACC.
  pose proof (native_list _ _ _ _ _ CH) as NL. unfold native. destruct (colist "native" va) as [|x r] eqn:C.
  - split; [|tauto]. intros [[A|[]] _]. split; [auto|]. intros [p [o [P [U _]]]].
    assert (I : In v (colist "native" va)) by (apply (colist_In _ _ _ _ _ "native" v CH); [cbn; auto|]; exists o; split; [eapply nth_error_In; eauto|auto]).
    rewrite C in I. destruct I.
  - rewrite (head_native t l0 x r ACC (eq_sym NL)). rewrite negb_true_iff. destruct (String.eqb_spec v x) as [->|N]; intuition congruence.
Qed.

(* The member links of a trunk: one for every VLAN used in a trunk on the link, other than the first native VLAN, sorted
   by name; [l] is the link with merged interface attributes, [mlink_of] describes a link. *)
Theorem trunk_links_exact : forall t l0 l1 va e l idx ms, (forall w, ~ defined t w "") ->
  (forall v g, dget v (tv_vlans t) = Some g -> NoDup (dkeys g)) ->
  check_link t l0 = (l1, va, true, e) -> create_vlan_links t l va idx = Some ms ->
  exists names, StronglySorted slt names /\ (forall v, In v names <-> vlan_used "trunk" l0 v /\ ~ first_native l0 v) /\ length ms = length names /\
    forall p v, nth_error names p = Some v -> exists m, nth_error ms p = Some m /\ mlink_of t l v (idx + Z.of_nat p) m.
Proof.
  intros t l0 l1 va e l idx ms NE ND CH H. destruct (trunk_names _ _ _ _ _ CH) as [T1 T2]. unfold create_vlan_links in H. cbv zeta in *.
  set (names := filter _ _) in *. exists names. split; [auto|]. split; [auto|]. apply member_links_nth in H. destruct H as [H1 H2]. split; [auto|].
  intros p v P. destruct (H2 _ _ P) as [m [M1 M2]]. exists m. split; [auto|]. apply member_link_spec; [|intros g; apply ND|auto].
  intros ->. apply nth_error_In in P. apply T2 in P. destruct P as [[o [I U]] _].
  pose proof (link_vlan_errors_exact _ _ _ _ _ _ CH) as [_ [AC _]]. pose proof (proj1 AC eq_refl _ I) as A.
  destruct o as [w o]. destruct U as [d [x [Q [X M]]]]. cbn [snd] in Q. subst o.
  assert (DEC : {right_type "trunk" x} + {~ right_type "trunk" x}).
  { destruct (conv "trunk" x) eqn:C; [left; apply conv_right; congruence|right; intros R; apply conv_right in R; congruence]. }
  destruct DEC as [R|R].
  - apply (A (KUndef w "trunk" "")). exists (VDict d). split; [auto|]. econstructor; [cbn; tauto|exact X|exact R|exact M|apply NE].
  - apply (A (KType w "trunk")). exists (VDict d). split; [auto|]. econstructor; [cbn; tauto|exact X|exact R].
Qed.

(* ---- the attached nodes, on the link before the transformation ---- *)

(* the interface takes part in the VLAN: link attributes count only on nodes with VLANs *)
Definition takes_part (t : vtp) (l : vlk) (v : string) (i : vif) : Prop :=
  uses "trunk" (vif_obj i) v \/ (uses "trunk" (link_obj l) v /\ exists nd, dget (vf_node i) (tv_nodes t) = Some nd /\ nd_aware nd = true).

Inductive part_nodes (t : vtp) (l : vlk) (v : string) : list vif -> list (option val) -> Prop :=
| pn_nil : part_nodes t l v [] []
| pn_skip : forall i r ns, ~ takes_part t l v i -> part_nodes t l v r ns -> part_nodes t l v (i :: r) ns
| pn_add : forall i r ns, takes_part t l v i -> part_nodes t l v r ns -> part_nodes t l v (i :: r) (Some (VStr (vf_node i)) :: ns).

Lemma has_uses : forall o o' v w, checked o o' -> ((exists tr, raw o' "trunk" = Some (VDict tr) /\ In v (dkeys tr)) <-> uses "trunk" (w, o) v).
Proof.
  intros o o' v w C. rewrite uses_raw. destruct (raw o "trunk") as [x|] eqn:R.
  - destruct (ck_trunk _ _ C _ R) as [d [-> D]]. split.
    + intros [tr [Q I]]. injection Q as <-. exists x. split; [auto|]. apply D. auto.
    + intros [y [Q M]]. injection Q as <-. exists d. split; [auto|]. apply D. auto.
  - rewrite (ck_notrunk _ _ C R). split; [intros [tr [Q _]]; discriminate Q|intros [y [Q _]]; discriminate Q].
Qed.

Lemma trunk_raw : forall i v, trunk_has i v <-> exists tr, raw (vf_vlan i) "trunk" = Some (VDict tr) /\ In v (dkeys tr).
Proof.
  intros i v. unfold trunk_has, raw. split.
  - intros [d [x [-> [D I]]]]. eauto.
  - intros [tr [R I]]. destruct (vf_vlan i) as [[| | | | |d]|]; try discriminate R. eauto.
Qed.

Lemma checked_trunk_dict : forall o o', checked o o' -> raw o' "trunk" = None \/ exists d, raw o' "trunk" = Some (VDict d).
Proof.
  intros o o' C. destruct (raw o "trunk") as [x|] eqn:R.
  - destruct (ck_trunk _ _ C _ R) as [d [-> D]]. eauto.
  - left. apply (ck_notrunk _ _ C R).
Qed.

Lemma merged_part : forall t l i i2 lv' v, checked (vf_vlan i) (vf_vlan i2) -> checked (vk_vlan l) lv' -> vf_node i2 = vf_node i ->
  (forall d, vf_vlan i2 = Some (VDict d) -> NoDup (dkeys d)) -> (forall x, vf_vlan i2 = Some x -> is_dict x = true) -> (forall x, lv' = Some x -> is_dict x = true) ->
  let i3 := match lv' with Some x => merge_intf t x i2 | None => i2 end in
  vf_node i3 = vf_node i /\ (trunk_has i3 v <-> takes_part t l v i).
Proof.
  intros t l i i2 lv' v C1 C2 N ND DI DL i3.
  assert (U1 := has_uses _ _ v (Some (vf_node i)) C1). assert (U2 := has_uses _ _ v None C2).
  unfold takes_part, vif_obj, link_obj. rewrite trunk_raw. destruct lv' as [x|].
  - specialize (DL _ eq_refl). destruct x as [| | | | |x]; try discriminate DL. unfold i3, merge_intf. rewrite N. unfold node_of.
    destruct (dget (vf_node i) (tv_nodes t)) as [nd|] eqn:G; cbn [nd_aware].
    + destruct (nd_aware nd) eqn:AW; cbn [vf_node vf_vlan].
      * split; [auto|]. rewrite <- U1, <- U2.
        assert (Y : exists y : dict val, match vf_vlan i2 with Some x0 => x0 | None => VDict [] end = VDict y /\ raw (vf_vlan i2) "trunk" = dget "trunk" y /\ NoDup (dkeys y)).
        { destruct (vf_vlan i2) as [y|] eqn:Q.
          - specialize (DI _ eq_refl). destruct y as [| | | | |y]; try discriminate DI. exists y. auto.
          - exists []. split; [auto|]. split; [auto|constructor]. }
        destruct Y as [y [E [R2 NY]]]. rewrite E, merge_dicts. cbn [raw]. rewrite dget_mdict by auto.
        rewrite R2. assert (T1 := checked_trunk_dict _ _ C1). assert (T2 := checked_trunk_dict _ _ C2). rewrite R2 in T1. cbn [raw] in T2 |- *.
        destruct T1 as [T1|[d1 T1]], T2 as [T2|[d2 T2]]; rewrite T1, T2; cbn [mopt].
        -- split; [intros [tr [Q _]]; discriminate Q|]. intros [[tr [Q _]]|[[tr [Q _]] _]]; discriminate Q.
        -- split; [intros H; right; split; [exact H|eauto]|]. intros [[tr [Q _]]|[H _]]; [discriminate Q|exact H].
        -- split; [intros H; left; exact H|]. intros [H|[[tr [Q _]] _]]; [exact H|discriminate Q].
        -- rewrite merge_dicts. split.
           ++ intros [tr [Q I]]. injection Q as <-. apply mdict_keys in I. destruct I as [I|I]; [right; split; [eauto|eauto]|left; eauto].
           ++ intros H. exists (mdict d2 d1). split; [auto|]. apply mdict_keys. destruct H as [[tr [Q I]]|[[tr [Q I]] _]]; injection Q as <-; auto.
      * split; [auto|]. rewrite U1. split; [auto|]. intros [H|[_ [nd' [Q A]]]]; [auto|]. injection Q as <-. congruence.
    + split; [auto|]. rewrite U1. split; [auto|]. intros [H|[_ [nd' [Q A]]]]; [auto|]. discriminate Q.
  - unfold i3. split; [auto|]. rewrite <- U2, U1. split; [auto|]. intros [H|[[tr [Q _]] _]]; [auto|discriminate Q].
Qed.

Lemma members_nodes : forall t l v rt k is ds, members t v rt k is ds -> forall js,
  Forall2 (fun i3 i => vf_node i3 = vf_node i /\ (trunk_has i3 v <-> takes_part t l v i)) is js -> part_nodes t l v js (map (dget "node") ds).
Proof.
  intros t l v rt k is ds H. induction H as [k|k i r ds N H IH|k i r d ds N M H IH]; intros js F; inversion F as [|? j ? js' [F1 F2] F3]; subst; cbn [map].
  - constructor.
  - apply pn_skip; [tauto|]. auto.
  - rewrite (mb_node _ _ _ _ _ _ M), F1. apply pn_add; [tauto|]. auto.
Qed.

Lemma Forall2_nth_eq : forall A B (R : A -> B -> Prop) l m, length l = length m ->
  (forall p x y, nth_error l p = Some x -> nth_error m p = Some y -> R x y) -> Forall2 R l m.
Proof.
  intros A B R. induction l as [|x l IH]; intros [|y m] L H; try discriminate L; constructor.
  - apply (H 0); auto.
  - apply IH; [cbn in L; lia|]. intros p a b P Q. apply (H (S p)); auto.
Qed.

Lemma validate_same : forall va l1 r l2 e, validate_link va l1 = (r, l2, e) ->
  Forall2 (fun i1 i2 => vf_node i2 = vf_node i1 /\ vf_vlan i2 = vf_vlan i1) (vk_ifs l1) (vk_ifs l2).
Proof.
  intros va l1 r l2 e H. assert (R : Forall2 (fun i1 i2 => vf_node i2 = vf_node i1 /\ vf_vlan i2 = vf_vlan i1) (vk_ifs l1) (vk_ifs l1))
    by (induction (vk_ifs l1); constructor; auto).
  unfold validate_link in H.
  destruct (dmem "trunk" va && dmem "access" va); [injection H as <- <- <-; auto|].
  destruct (dmem "native" va && negb (dmem "trunk" va)); [injection H as <- <- <-; auto|].
  destruct (match dget "access" va with Some c => several (co_global c) | None => false end); [injection H as <- <- <-; auto|].
  destruct (colist "native" va) as [|x q]; [injection H as <- <- <-; auto|].
  destruct (negb (existsb (fun x => memS x (colist "trunk" va)) (x :: q))); [injection H as <- <- <-; auto|].
  injection H as <- <- <-. cbn [set_ifs vk_ifs]. clear R. induction (vk_ifs l1) as [|i is IH]; cbn [map]; constructor; [|exact IH].
  unfold native_intf. destruct (vf_vlan i) as [v|] eqn:V; [|auto]. destruct (effective "native" (Some v) (vk_vlan l1)).
  - destruct (effective "trunk" (Some v) (vk_vlan l1)); auto.
  - destruct (effective "trunk" (Some v) (vk_vlan l1)) as [tr|]; [|auto]. destruct (vmember x tr); auto.
Qed.

(* The VLANs of the member links and the attached nodes, from the attributes of the link before the transformation:
   a node is attached when the VLAN is in the trunk of its interface, or in the trunk of the link and the node uses VLANs. *)
Theorem trunk_link_nodes : forall pick t l idx l' ms e, (forall w, ~ defined t w "") ->
  (forall v g, dget v (tv_vlans t) = Some g -> NoDup (dkeys g)) ->
  (forall i d, In i (vk_ifs l) -> vf_vlan i = Some (VDict d) -> NoDup (dkeys d)) ->
  dget "type" (vk_data l) <> Some (VStr "vlan_member") ->
  link_pre_transform pick t l idx = Some (l', ms, e) -> e = [] \/ ms <> [] ->
  exists names, StronglySorted slt names /\ (forall v, In v names <-> vlan_used "trunk" l v /\ ~ first_native l v) /\
    Forall2 (fun v m => part_nodes t l v (vk_ifs l) (map (dget "node") (ml_ifs m))) names ms.
Proof.
  intros pick t l idx l' ms e NE ND NI TY H OK. unfold link_pre_transform in H.
  assert (H' : match check_link t l with
        | (l1, _, false, e1) => Some (l1, [], e1)
        | (l1, va, true, e1) =>
            match validate_link va l1 with
            | (false, l2, e2) => Some (l2, [], e1 ++ e2)
            | (true, l2, e2) =>
                let l3 := merge_link t l2 in
                match (if dmem "trunk" va then validate_trunk (vk_ifs l3) else Some []) with
                | None => None
                | Some (e :: r) => Some (l3, [], e1 ++ e2 ++ e :: r)
                | Some [] =>
                    bind (if dmem "trunk" va then create_vlan_links t l3 va idx else Some []) (fun ms =>
                    bind (access_link pick t va l3) (fun l4 => Some (l4, ms, e1 ++ e2)))
                end
            end
        end = Some (l', ms, e)).
  { destruct (dget "type" (vk_data l)) as [x|]; [|exact H]. destruct x as [| | |s| |]; try exact H.
    destruct (string_dec s "vlan_member") as [->|N]; [congruence|].
    repeat (match type of H with match ?x with _ => _ end = _ => is_var x; destruct x; try exact H; try (exfalso; congruence) end). }
  clear H. destruct (check_link t l) as [[[l1 va] ok] e1] eqn:CH. pose proof (obj_vlan _ _ _ _ _ _ CH) as OV. destruct OV as [_ [OV _]].
  destruct ok.
  2:{ injection H' as <- <- <-. destruct OK as [->|Q]; [|congruence]. assert (false = true) by (apply OV; auto). discriminate. }
  destruct (validate_link va l1) as [[r l2] e2] eqn:VL. destruct r.
  2:{ injection H' as <- <- <-. destruct OK as [Q|Q]; [|congruence]. apply app_eq_nil in Q. destruct Q as [_ ->]. exfalso. unfold validate_link in VL.
      destruct (dmem "trunk" va && dmem "access" va); [congruence|]. destruct (dmem "native" va && negb (dmem "trunk" va)); [congruence|].
      destruct (match dget "access" va with Some c => several (co_global c) | None => false end); [congruence|].
      destruct (colist "native" va) as [|x q]; [congruence|]. destruct (negb _); congruence. }
  cbv zeta in H'.
  assert (CR : exists ms', (if dmem "trunk" va then create_vlan_links t (merge_link t l2) va idx else Some []) = Some ms' /\ ms' = ms).
  { destruct (if dmem "trunk" va then validate_trunk (vk_ifs (merge_link t l2)) else Some []) as [[|k q]|] eqn:VT; [| |discriminate H'].
    - unfold bind in H'. destruct (if dmem "trunk" va then create_vlan_links t (merge_link t l2) va idx else Some []) as [ms'|]; [|discriminate H'].
      destruct (access_link pick t va (merge_link t l2)); [|discriminate H']. exists ms'. split; [auto|]. congruence.
    - injection H' as <- <- <-. destruct OK as [Q|Q]; [|congruence]. apply app_eq_nil in Q. destruct Q as [_ Q]. apply app_eq_nil in Q. destruct Q as [_ Q]. discriminate Q. }
  clear H' OK. destruct CR as [ms' [CR ->]].
  assert (CR' : create_vlan_links t (merge_link t l2) va idx = Some ms).
  { destruct (dmem "trunk" va) eqn:DM; [auto|]. injection CR as <-. unfold create_vlan_links. unfold colist at 2.
    unfold dmem in DM. destruct (dget "trunk" va); [discriminate DM|auto]. }
  clear CR. destruct (trunk_links_exact _ _ _ _ _ _ _ _ NE ND CH CR') as [names [N1 [N2 [N3 N4]]]]. exists names. split; [auto|]. split; [auto|].
  pose proof (link_vlan_errors_exact _ _ _ _ _ _ CH) as [_ [AC NR]]. pose proof (proj1 AC eq_refl) as ACC. destruct (NR eq_refl) as [_ [_ [_ [_ [CI CL]]]]].
  destruct (link_rules_exact _ _ _ _ _ _ _ _ NE CH VL) as [_ [_ [_ [_ [LV [_ [LL LP]]]]]]].
  assert (CKL : checked (vk_vlan l) (vk_vlan l1)) by (eapply (clean_checked t None); [auto|apply ACC; now left|exact CL]).
  assert (DIS : forall w o, accepted t (w, o) -> forall x, o = Some x -> is_dict x = true).
  { intros w o A x ->. destruct (is_dict x) eqn:D; [auto|]. exfalso. apply (A (KNotDict w)). exists x. split; [auto|]. constructor. auto. }
  assert (CLD : forall a b, clean a b -> (forall x, vf_vlan a = Some x -> is_dict x = true) -> forall y, vf_vlan b = Some y -> is_dict y = true).
  { intros a b [_ [_ C]] D y Y. destruct (vf_vlan a) as [[| | | | |d]|]; try contradiction; [|congruence]. destruct C as [d' [Q _]]. rewrite Q in Y. injection Y as <-. auto. }
  apply Forall2_nth_eq; [auto|]. intros p v m P M. destruct (N4 _ _ P) as [m' [M1 M2]]. rewrite M in M1. injection M1 as <-.
  destruct M2 as [[init [_ [_ [_ [_ [_ [_ [_ [_ [_ [MA MB]]]]]]]]]]]].
  assert (MM : exists rt, members t v rt 0 (vk_ifs (merge_link t l2)) (ml_ifs m)).
  { cbv zeta in MA, MB. clear - MA MB. destruct (ml_ifs m) as [|d r] eqn:E.
    - exists false. apply MB. tauto.
    - assert (D : {forall x, In x (d :: r) -> dget "_vlan_mode" x = Some (VStr "route")} + {~ forall x, In x (d :: r) -> dget "_vlan_mode" x = Some (VStr "route")}).
      { clear. generalize (d :: r). clear. intros l. induction l as [|x l [IH|IH]].
        - left. intros x [].
        - destruct (match dget "_vlan_mode" x with Some y => is_str "route" y | None => false end) eqn:Q.
          + left. intros z [<-|Z]; [|auto]. destruct (dget "_vlan_mode" x) as [y|]; [|discriminate Q]. apply is_str_iff in Q. congruence.
          + right. intros F. specialize (F x (or_introl eq_refl)). rewrite F in Q. cbn in Q. discriminate Q.
        - right. intros F. apply IH. intros z Z. apply F. now right. }
      destruct D as [D|D].
      + exists true. apply MA. split; [discriminate|auto].
      + exists false. apply MB. tauto. }
  destruct MM as [rt MM]. eapply members_nodes; [exact MM|]. clear MM MA MB.
  assert (LEN : length (vk_ifs (merge_link t l2)) = length (vk_ifs l)).
  { rewrite <- (Forall2_length CI) in LL. unfold merge_link. destruct (vk_vlan l2); [cbn [set_ifs vk_ifs]; rewrite map_length; auto|auto]. }
  apply Forall2_nth_eq; [auto|]. intros q i3 i Q3 Q.
  assert (X1 : exists i1, nth_error (vk_ifs l1) q = Some i1 /\ clean i i1).
  { clear - CI Q. revert q Q. induction CI as [|a b r s C CI IH]; intros [|q] Q; try discriminate Q; cbn [nth_error] in *; [injection Q as <-; eauto|eauto]. }
  destruct X1 as [i1 [Q1 C1]]. pose proof (validate_same _ _ _ _ _ VL) as VS.
  assert (X2 : exists i2, nth_error (vk_ifs l2) q = Some i2 /\ vf_node i2 = vf_node i1 /\ vf_vlan i2 = vf_vlan i1).
  { clear - VS Q1. revert q Q1. induction VS as [|a b r s C VS IH]; intros [|q] Q; try discriminate Q; cbn [nth_error] in *; [injection Q as <-; eauto|eauto]. }
  destruct X2 as [i2 [Q2 [S1 S2]]]. assert (II := Q). apply nth_error_In in II.
  assert (AI : accepted t (vif_obj i)) by (apply ACC; right; apply in_map_iff; exists i; auto).
  assert (CK : checked (vf_vlan i) (vf_vlan i2)).
  { rewrite S2. eapply (clean_checked t (Some (vf_node i)) _ _ (vf_node i) (vf_node i1) (vf_data i) (vf_data i1)); [auto|exact AI|].
    destruct i, i1. exact C1. }
  assert (DI : forall x, vf_vlan i2 = Some x -> is_dict x = true).
  { rewrite S2. apply (CLD i i1 C1). apply (DIS _ _ AI). }
  assert (DL : forall x, vk_vlan l1 = Some x -> is_dict x = true).
  { apply (CLD _ _ CL). cbn [vf_vlan]. apply (DIS None). apply ACC. now left. }
  assert (NY : forall d, vf_vlan i2 = Some (VDict d) -> NoDup (dkeys d)).
  { intros d D. rewrite S2 in D. destruct C1 as [_ [_ C1]]. destruct (vf_vlan i) as [[| | | | |d0]|] eqn:V; try contradiction; [|congruence].
    destruct C1 as [d' [E1 [E2 _]]]. rewrite E1 in D. injection D as <-. rewrite E2. eapply NI; eauto. }
  assert (NN : vf_node i2 = vf_node i) by (rewrite S1; apply C1).
  destruct (merged_part t l i i2 (vk_vlan l1) v CK CKL NN NY DI DL) as [R1 R2].
  assert (E3 : i3 = match vk_vlan l1 with Some x => merge_intf t x i2 | None => i2 end).
  { clear - Q3 Q2 LV. unfold merge_link in Q3. rewrite LV in Q3. destruct (vk_vlan l1) as [x|].
    - cbn [set_ifs vk_ifs] in Q3. rewrite (map_nth_error _ _ _ Q2) in Q3. congruence.
    - congruence. }
  rewrite E3. split; auto.
Qed.

(* ---- the links can be created ---- *)

(* trunk entries are dictionaries, and their vlan attribute is a dictionary *)
Definition plain_entry (o : option val) : Prop := exists d, entry o d /\ (dget "vlan" d = None \/ exists x, dget "vlan" d = Some (VDict x)).

Lemma entry_dict : forall o d, entry o d -> dict_or_empty o = Some d.
Proof.
  intros o d H. unfold entry, dict_or_empty in *. destruct o as [v|]; [|subst; auto]. destruct v; [| | | | |subst; auto]; destruct H as [H1 ->]; rewrite H1; auto.
Qed.

Lemma set_vattr_ok : forall a v d, (dget "vlan" d = None \/ exists x, dget "vlan" d = Some (VDict x)) ->
  exists d', set_vattr a v d = Some d' /\ exists x, dget "vlan" d' = Some (VDict x).
Proof.
  intros a v d [H|[x H]]; unfold set_vattr; rewrite H; eexists; split; try reflexivity; eexists; apply dget_dset_same.
Qed.

Lemma member_intf_ok : forall t d v n pm k, (dget "vlan" d = None \/ exists x, dget "vlan" d = Some (VDict x)) ->
  exists r, member_intf t d v n pm k = Some r /\ exists x, dget "vlan" r = Some (VDict x).
Proof.
  intros t d v n pm k H. unfold member_intf, bind.
  destruct (set_vattr_ok "access" (VStr v) (dset "_selfloop_ifindex" (VInt (Z.of_nat k)) (dset "node" (VStr n) d))) as [d1 [-> D1]].
  { rewrite !dget_dset_other by discriminate. auto. }
  assert (X : exists d2, match pm with Some m => match vget (dget "vlan" d1) "mode" with Some _ => Some d1 | None => set_vattr "mode" m d1 end | None => Some d1 end = Some d2 /\
     exists x, dget "vlan" d2 = Some (VDict x)).
  { destruct pm as [m|]; [|eauto]. destruct (vget (dget "vlan" d1) "mode"); [eauto|]. apply set_vattr_ok. auto. }
  destruct X as [d2 [-> [x D2]]]. eexists. split; [reflexivity|]. exists x.
  destruct (is_str "bridge" (compute_mode t n (Some v) (dget "_vlan_mode" d2) (vget (dget "vlan" d2) "mode")));
    rewrite !dget_dset_other by discriminate; exact D2.
Qed.

Lemma member_ifs_ok : forall t v l k p, (forall i, In i l -> trunk_has i v -> plain_entry (trunk_entry (vf_vlan i) v)) ->
  exists ds o, member_ifs t v l k p = Some (ds, o) /\ forall d, In d ds -> exists x, dget "vlan" d = Some (VDict x).
Proof.
  intros t v. induction l as [|i l IH]; intros k p H; cbn [member_ifs].
  - exists [], p. split; [auto|]. intros d [].
  - destruct (in_trunk v i) eqn:IT.
    + rewrite trunk_lookup. destruct (H i (or_introl eq_refl)) as [d [E D]]; [apply in_trunk_iff; auto|]. rewrite (entry_dict _ _ E). unfold bind.
      destruct (member_intf_ok t d v (vf_node i) (vattr_of "mode" i) k D) as [r [-> R]]. cbv zeta.
      match goal with |- context [member_ifs t v l (S k) ?p1] => destruct (IH (S k) p1) as [ds [o [-> F]]] end; [intros j J; apply H; now right|].
      exists (r :: ds), o. split; [auto|]. intros x [<-|X]; auto.
    + apply IH. intros j J. apply H. now right.
Qed.

(* Without strange values the links are always created. *)
Theorem trunk_links_created : forall t l va idx, (forall v, glob t v "vlan" = None \/ exists x, glob t v "vlan" = Some (VDict x)) ->
  (forall v g, dget v (tv_vlans t) = Some g -> NoDup (dkeys g)) ->
  (forall v, In v (colist "trunk" va) -> plain_entry (trunk_entry (vk_vlan l) v)) ->
  (forall i v, In i (vk_ifs l) -> trunk_has i v -> plain_entry (trunk_entry (vf_vlan i) v)) ->
  exists ms, create_vlan_links t l va idx = Some ms.
Proof.
  intros t l va idx G ND HL HI. unfold create_vlan_links. cbv zeta.
  assert (A : forall names, (forall v, In v names -> In v (colist "trunk" va)) -> forall idx, exists ms, member_links t l names idx = Some ms).
  { induction names as [|v names IH]; intros S idx0; cbn [member_links]; [eauto|]. unfold bind.
    assert (M : exists m, member_link t l v idx0 = Some m).
    { unfold member_link, bind. rewrite link_entry. destruct (HL v (S v (or_introl eq_refl))) as [d [E D]]. rewrite (entry_dict _ _ E). unfold link_data, bind.
      destruct (set_vattr_ok "access" (VStr v) (dset "parentindex" (VInt (vk_index l)) (dset "linkindex" (VInt idx0) (dset "_linkname" (VStr (vk_name l ++ "." ++ v)) d)))) as [d1 [-> D1]].
      { rewrite !dget_dset_other by discriminate. auto. }
      assert (F : exists d2, fix_mode (dset "type" (VStr "vlan_member") (dset "vlan_name" (VStr v) d1)) = Some d2 /\ exists x, dget "vlan" d2 = Some (VDict x)).
      { unfold fix_mode, bind. destruct (dget "mode" (dset "type" (VStr "vlan_member") (dset "vlan_name" (VStr v) d1))) as [m|].
        - destruct (set_vattr_ok "mode" m (dset "type" (VStr "vlan_member") (dset "vlan_name" (VStr v) d1))) as [d2 [-> [x D2]]].
          + rewrite !dget_dset_other by discriminate. auto.
          + eexists. split; [reflexivity|]. exists x. rewrite dget_dpop_other by discriminate. auto.
        - eexists. split; [reflexivity|]. rewrite !dget_dset_other by discriminate. auto. }
      destruct F as [d2 [-> [x2 D2]]].
      destruct (member_ifs_ok t v (vk_ifs l) 0 match dget v (tv_vlans t) with Some g => dget "prefix" g | None => None end) as [ds [o [-> DS]]]; [intros i I; apply HI; auto|].
      destruct (routed (map (dget "_vlan_mode") ds)); [|eauto].
      destruct (set_vattr_ok "mode" (VStr "route") (add_global t v d2)) as [d3 [-> _]].
      { rewrite add_global_spec by (intros g; apply ND). rewrite D2. destruct (G v) as [Q|[x Q]]; rewrite Q; cbn [orv]; eauto. }
      assert (AS : exists ds', all_some (map (set_vattr "mode" (VStr "route")) ds) = Some ds').
      { clear - DS. induction ds as [|d ds IH]; cbn [map all_some]; [eauto|].
        destruct (set_vattr_ok "mode" (VStr "route") d) as [d' [-> _]]; [right; apply DS; now left|]. destruct IH as [r ->]; [intros z Z; apply DS; now right|]. eauto. }
      destruct AS as [ds' ->]. eauto. }
    destruct M as [m ->]. destruct (IH (fun w W => S w (or_intror W)) (idx0 + 1)%Z) as [ms ->]. eauto. }
  apply A. intros v V. apply filter_In in V. destruct V as [V _]. unfold sorted_set in V. apply fold_insert_In in V. destruct V as [V|[]]. auto.
Qed.

(* ---- examples ---- *)

Definition vm_topo : vtp :=
  mk_vtp [("red", [("id", VInt 1000); ("prefix", VDict [("ipv4", VStr "172.16.0.0/24")]); ("type", VStr "p2p"); ("ospf", VDict [("cost", VInt 10)])]);
          ("blue", [("id", VInt 1001); ("mode", VStr "bridge"); ("prefix", VDict [("ipv4", VStr "172.16.1.0/24")])]);
          ("gray", [("id", VInt 1002); ("mode", VStr "route")])] None
    [("s1", vx_sw []); ("s2", vx_sw []); ("h1", mk_vnd [] None false)] ["id"; "vni"; "mode"; "prefix"].
Definition vm_link : vlk :=
  mk_vlk "links[3]" 3 (Some (VDict [("trunk", VDict [("red", VDict [("ospf", VDict [("cost", VInt 20)])]); ("gray", VNull); ("blue", VNull)])])) []
    [mk_vif "s1" None []; mk_vif "s2" None []].

(* the links of the VLANs: prefix, type and modes of the interfaces *)
Definition vm_sum (m : mlink) : list (option val) :=
  [dget "linkindex" (ml_data m); dget "vlan_name" (ml_data m); dget "type" (ml_data m); dget "prefix" (ml_data m)] ++ map (dget "_vlan_mode") (ml_ifs m).
Example vm_links : option_map (fun r => (map vm_sum (snd (fst r)), snd r)) (link_pre_transform (fun l => hd "" l) vm_topo vm_link 7) =
  Some ([[Some (VInt 7); Some (VStr "blue"); Some (VStr "vlan_member"); Some (VDict [("ipv4", VStr "172.16.1.0/24")]); Some (VStr "bridge"); Some (VStr "bridge")];
         [Some (VInt 8); Some (VStr "gray"); Some (VStr "vlan_member"); None; Some (VStr "route"); Some (VStr "route")];
         [Some (VInt 9); Some (VStr "red"); Some (VStr "p2p"); Some (VDict [("ipv4", VStr "172.16.0.0/24")]); Some (VStr "irb"); Some (VStr "irb")]], []).
Proof. vm_compute. reflexivity. Qed.

(* The type of a global VLAN replaces the type of its member links, so they are not recognized as member links, and an
   attribute of the global VLAN replaces the attribute specified in the trunk of the link. *)
Theorem member_type_refuted : exists l' ms e m, link_pre_transform (fun l => hd "" l) vm_topo vm_link 7 = Some (l', ms, e) /\ e = [] /\ nth_error ms 2 = Some m /\
  dget "vlan_name" (ml_data m) = Some (VStr "red") /\ dget "type" (ml_data m) = Some (VStr "p2p") /\ dget "ospf" (ml_data m) = Some (VDict [("cost", VInt 10)]) /\
  trunk_entry (vk_vlan vm_link) "red" = Some (VDict [("ospf", VDict [("cost", VInt 20)])]).
Proof. eexists. eexists. eexists. eexists. vm_compute. repeat split; reflexivity. Qed.

Print Assumptions trunk_links_exact.
Print Assumptions trunk_link_nodes.
Print Assumptions trunk_links_created.
Print Assumptions member_type_refuted.
