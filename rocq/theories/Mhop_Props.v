(* Properties C163 - C166: multihop EBGP sessions. *)
From Coq Require Import String ZArith Lia Bool List.
From Verif Require Import Base Box_Model Mhop_Model.
Import ListNotations.
Local Open Scope string_scope.
Local Open Scope list_scope.

(* ------------------------------------------------------------------ *)
(* Sessions and their interfaces                                        *)

(* an attribute in the bgp dictionary *)
Definition bgp_attr (d : dict val) (a : string) (v : val) : Prop := exists b, dget "bgp" d = Some (VDict b) /\ dget a b = Some v.

Lemma bgp_of_attr : forall d a v, bgp_attr d a v <-> dget a (bgp_of d) = Some v.
Proof.
  intros d a v. unfold bgp_attr, bgp_of. split.
  - intros [b [E H]]. rewrite E. exact H.
  - intros H. destruct (dget "bgp" d) as [[| | | | |b]|]; try discriminate H. exists b. split; [reflexivity|exact H].
Qed.

Lemma to_bgp_fold : forall keep l d0, In "bgp" keep -> NoDup (dkeys l) ->
  let d := fold_left (fun d kv => if memS (fst kv) keep then d
                         else dpop (fst kv) (dset "bgp" (VDict (dset (fst kv) (snd kv) (bgp_of d))) d)) l d0 in
  (forall k, k <> "bgp" -> dget k d = if memS k keep then dget k d0 else if dmem k l then None else dget k d0) /\
  (forall a, dget a (bgp_of d) = if memS a keep then dget a (bgp_of d0) else match dget a l with Some v => Some v | None => dget a (bgp_of d0) end).
Proof.
  intros keep l. induction l as [|[x v] l IH]; intros d0 KB ND; cbn [fold_left].
  - split; [intros k _; destruct (memS k keep); reflexivity|intros a; destruct (memS a keep); reflexivity].
  - cbn [dkeys map fst] in ND. inversion ND as [|? ? N1 N2]; subst. cbn [fst snd].
    destruct (memS x keep) eqn:X.
    + destruct (IH d0 KB N2) as [A B]. split.
      * intros k K. rewrite (A k K). destruct (memS k keep) eqn:M; [reflexivity|]. unfold dmem. cbn [dget].
        destruct (String.eqb_spec k x) as [Q|Q]; [subst; rewrite X in M; discriminate M|reflexivity].
      * intros a. rewrite B. destruct (memS a keep) eqn:M; [reflexivity|]. cbn [dget].
        destruct (String.eqb_spec a x) as [Q|Q]; [subst; rewrite X in M; discriminate M|reflexivity].
    + assert (XB : x <> "bgp") by (intros Q; subst x; apply memS_false in X; contradiction).
      set (d1 := dpop x (dset "bgp" (VDict (dset x v (bgp_of d0))) d0)).
      assert (B1 : bgp_of d1 = dset x v (bgp_of d0)).
      { unfold d1. unfold bgp_of at 1. rewrite dget_dpop_other by (intros Q; apply XB; symmetry; exact Q). rewrite dget_dset_same. reflexivity. }
      assert (NX : dget x l = None) by (apply dget_None; exact N1).
      destruct (IH d1 KB N2) as [A B]. split.
      * intros k K. rewrite (A k K). destruct (String.eqb_spec k x) as [Q|Q].
        -- subst k. rewrite X. unfold dmem. cbn [dget]. rewrite String.eqb_refl, NX. unfold d1. apply dget_dpop_same.
        -- unfold dmem. cbn [dget]. apply String.eqb_neq in Q. rewrite Q. apply String.eqb_neq in Q. unfold d1.
           rewrite dget_dpop_other by exact Q. rewrite dget_dset_other by exact K. reflexivity.
      * intros a. rewrite B, B1. destruct (String.eqb_spec a x) as [Q|Q].
        -- subst a. rewrite X, NX, dget_dset_same. cbn [dget]. rewrite String.eqb_refl. reflexivity.
        -- rewrite dget_dset_other by exact Q. cbn [dget]. apply String.eqb_neq in Q. rewrite Q. reflexivity.
Qed.

Lemma to_bgp_get : forall keep d, In "bgp" keep -> NoDup (dkeys d) ->
  (forall k, k <> "bgp" -> dget k (to_bgp keep d) = if memS k keep then dget k d else None) /\
  (forall a, dget a (bgp_of (to_bgp keep d)) = if memS a keep then dget a (bgp_of d) else match dget a d with Some v => Some v | None => dget a (bgp_of d) end).
Proof.
  intros keep d KB ND. destruct (to_bgp_fold keep d d KB ND) as [A B]. fold (to_bgp keep d) in A, B. split; [|exact B].
  intros k K. rewrite (A k K). destruct (memS k keep); [reflexivity|]. unfold dmem. destruct (dget k d); reflexivity.
Qed.

(* a bgp attribute: moved from the attributes of the object, or its own *)
Definition moved_attr (keep : list string) (d : dict val) (a : string) (v : val) : Prop :=
  (~ In a keep /\ dget a d = Some v) \/ ((In a keep \/ dget a d = None) /\ bgp_attr d a v).

Lemma moved_spec : forall keep d a v, In "bgp" keep -> NoDup (dkeys d) ->
  (dget a (bgp_of (to_bgp keep d)) = Some v <-> moved_attr keep d a v).
Proof.
  intros keep d a v KB ND. rewrite (proj2 (to_bgp_get keep d KB ND)). unfold moved_attr. rewrite bgp_of_attr. destruct (memS a keep) eqn:M.
  - apply memS_true in M. split; [intros H; right; split; [left; exact M|exact H]|intros [[N _]|[_ H]]; [contradiction|exact H]].
  - apply memS_false in M. destruct (dget a d) as [w|].
    + split; [intros H; left; split; [exact M|exact H]|intros [[_ H]|[[Q|Q] _]]; [exact H|contradiction|discriminate Q]].
    + split; [intros H; right; split; [right; reflexivity|exact H]|intros [[_ H]|[_ H]]; [discriminate H|exact H]].
Qed.

Definition skeep : list string := ["interfaces"; "_linkname"; "bgp"; "vrf"].
Definition ikeep : list string := ["node"; "bgp"; "vrf"].

(* the attributes of a session link *)
Definition session_spec (idx : Z) (d d' : dict val) : Prop :=
  dget "type" d' = Some (VStr "tunnel") /\ dget "linkindex" d' = Some (VInt idx) /\ dget "_bgp_session" d' = Some (VBool true) /\
  (forall k, In k ["interfaces"; "_linkname"; "vrf"] -> dget k d' = dget k d) /\
  (forall k v, dget k d' = Some v -> In k (["type"; "linkindex"; "_bgp_session"] ++ skeep)) /\
  forall a v, bgp_attr d' a v <-> moved_attr skeep d a v.

(* the attributes of its interfaces; [lb] - loopback of the node *)
Definition intf_spec (lb : option (dict val)) (name : string) (d d' : dict val) : Prop :=
  dget "node" d' = dget "node" d /\ dget "vrf" d' = dget "vrf" d /\
  (forall k v, dget k d' = Some v -> In k (["ipv4"; "ipv6"; "_bgp_session"; "ifname"] ++ ikeep)) /\
  match lb with
  | Some l =>
      dget "ipv4" d' = dget "ipv4" l /\ dget "ipv6" d' = dget "ipv6" l /\
      dget "_bgp_session" d' = Some (VBool true) /\ dget "ifname" d' = Some (VStr name) /\
      forall a v, bgp_attr d' a v <->
        (a = "_vrf" /\ dget "vrf" d = Some v) \/
        (a = "multihop" /\ v = VInt 255) \/
        (a <> "multihop" /\ (a = "_vrf" -> dget "vrf" d = None) /\ moved_attr ikeep d a v)
  | None => dget "ipv4" d' = None /\ dget "ipv6" d' = None /\ forall a v, bgp_attr d' a v <-> moved_attr ikeep d a v
  end.

Lemma bgp_of_dset : forall k v d, k <> "bgp" -> bgp_of (dset k v d) = bgp_of d.
Proof. intros k v d N. unfold bgp_of. rewrite dget_dset_other by (intros Q; apply N; symmetry; exact Q). reflexivity. Qed.

Lemma bgp_of_set : forall k v d, bgp_of (set_bgp k v d) = dset k v (bgp_of d).
Proof. intros k v d. unfold set_bgp. unfold bgp_of at 1. rewrite dget_dset_same. reflexivity. Qed.

Lemma dget_set_bgp : forall x k v d, x <> "bgp" -> dget x (set_bgp k v d) = dget x d.
Proof. intros x k v d N. unfold set_bgp. apply dget_dset_other. exact N. Qed.

Ltac other := rewrite dget_dset_other by discriminate.

Lemma session_attr_spec : forall idx d, NoDup (dkeys d) -> session_spec idx d (session_attr idx d).
Proof.
  intros idx d ND. assert (KB : In "bgp" SESSION_KEEP) by (right; right; left; reflexivity).
  destruct (to_bgp_get SESSION_KEEP d KB ND) as [A B]. unfold session_attr, session_spec. split; [other; other; apply dget_dset_same|].
  split; [other; apply dget_dset_same|]. split; [apply dget_dset_same|]. split.
  - intros k K. assert (KN : k <> "_bgp_session" /\ k <> "linkindex" /\ k <> "type" /\ k <> "bgp" /\ memS k SESSION_KEEP = true).
    { destruct K as [K|[K|[K|[]]]]; subst k; repeat split; try discriminate; reflexivity. }
    destruct KN as [N1 [N2 [N3 [N4 N5]]]]. rewrite !dget_dset_other by assumption. rewrite (A k N4), N5. reflexivity.
  - split.
    + intros k v H. destruct (string_dec k "_bgp_session") as [Q|N1]; [subst; right; right; left; reflexivity|].
      destruct (string_dec k "linkindex") as [Q|N2]; [subst; right; left; reflexivity|].
      destruct (string_dec k "type") as [Q|N3]; [subst; left; reflexivity|].
      rewrite !dget_dset_other in H by assumption. apply in_or_app. right.
      destruct (string_dec k "bgp") as [Q|N4]; [subst; right; right; left; reflexivity|]. rewrite (A k N4) in H.
      destruct (memS k SESSION_KEEP) eqn:M; [apply memS_true in M; exact M|discriminate H].
    + intros a v. rewrite bgp_of_attr, !bgp_of_dset by discriminate. apply (moved_spec skeep d a v KB ND).
Qed.

Lemma session_intf_spec : forall lb name d, NoDup (dkeys d) -> intf_spec lb name d (fst (session_intf lb name d)).
Proof.
  intros lb name d ND. assert (KB : In "bgp" INTF_KEEP) by (right; left; reflexivity).
  destruct (to_bgp_get INTF_KEEP d KB ND) as [A _]. pose proof (fun a v => moved_spec INTF_KEEP d a v KB ND) as MV.
  unfold session_intf. set (d0 := to_bgp INTF_KEEP d) in *.
  assert (K0 : forall k v, dget k d0 = Some v -> In k ikeep).
  { intros k v H. destruct (string_dec k "bgp") as [Q|N]; [subst; right; left; reflexivity|]. rewrite (A k N) in H.
    destruct (memS k INTF_KEEP) eqn:M; [apply memS_true in M; exact M|discriminate H]. }
  assert (N0 : dget "node" d0 = dget "node" d) by (rewrite A by discriminate; reflexivity).
  assert (V0 : dget "vrf" d0 = dget "vrf" d) by (rewrite A by discriminate; reflexivity).
  assert (F4 : dget "ipv4" d0 = None) by (rewrite A by discriminate; reflexivity).
  assert (F6 : dget "ipv6" d0 = None) by (rewrite A by discriminate; reflexivity).
  clearbody d0. destruct lb as [l|].
  2:{ unfold intf_spec. cbn [fst]. split; [exact N0|]. split; [exact V0|]. split; [intros k v H; apply in_or_app; right; exact (K0 k v H)|].
      split; [exact F4|]. split; [exact F6|]. intros a v. rewrite bgp_of_attr. apply MV. }
  cbv zeta.
  set (d1 := match dget "ipv4" l with Some a => dset "ipv4" a d0 | None => d0 end).
  assert (G1 : forall k, k <> "ipv4" -> dget k d1 = dget k d0).
  { intros k N. unfold d1. destruct (dget "ipv4" l); [apply dget_dset_other; exact N|reflexivity]. }
  assert (A1 : dget "ipv4" d1 = dget "ipv4" l).
  { unfold d1. destruct (dget "ipv4" l); [apply dget_dset_same|exact F4]. }
  assert (B1 : bgp_of d1 = bgp_of d0) by (unfold bgp_of; rewrite G1 by discriminate; reflexivity).
  clearbody d1.
  set (d2 := match dget "ipv6" l with Some a => dset "ipv6" a d1 | None => d1 end).
  assert (G2 : forall k, k <> "ipv6" -> dget k d2 = dget k d1).
  { intros k N. unfold d2. destruct (dget "ipv6" l); [apply dget_dset_other; exact N|reflexivity]. }
  assert (A2 : dget "ipv6" d2 = dget "ipv6" l).
  { unfold d2. destruct (dget "ipv6" l); [apply dget_dset_same|rewrite G1 by discriminate; exact F6]. }
  assert (B2 : bgp_of d2 = bgp_of d0) by (unfold bgp_of; rewrite G2 by discriminate; exact B1).
  clearbody d2.
  set (d3 := set_bgp "multihop" (VInt 255) d2).
  assert (G3 : forall k, k <> "bgp" -> dget k d3 = dget k d2) by (intros k N; apply dget_set_bgp; exact N).
  assert (B3 : bgp_of d3 = dset "multihop" (VInt 255) (bgp_of d0)) by (unfold d3; rewrite bgp_of_set, B2; reflexivity).
  clearbody d3.
  assert (V3 : dget "vrf" d3 = dget "vrf" d) by (rewrite G3, G2, G1 by discriminate; exact V0).
  set (d4 := match dget "vrf" d3 with Some v => set_bgp "_vrf" v d3 | None => d3 end).
  assert (G4 : forall k, k <> "bgp" -> dget k d4 = dget k d3).
  { intros k N. unfold d4. destruct (dget "vrf" d3); [apply dget_set_bgp; exact N|reflexivity]. }
  assert (B4 : bgp_of d4 = match dget "vrf" d with Some v => dset "_vrf" v (bgp_of d3) | None => bgp_of d3 end).
  { unfold d4. rewrite V3. destruct (dget "vrf" d); [apply bgp_of_set|reflexivity]. }
  clearbody d4. unfold intf_spec. cbn [fst].
  split; [other; other; rewrite G4, G3, G2, G1 by discriminate; exact N0|].
  split; [other; other; rewrite G4 by discriminate; exact V3|].
  split.
  { intros k v H. destruct (string_dec k "ifname") as [Q|N1]; [subst; right; right; right; left; reflexivity|].
    destruct (string_dec k "_bgp_session") as [Q|N2]; [subst; right; right; left; reflexivity|]. rewrite !dget_dset_other in H by assumption.
    destruct (string_dec k "bgp") as [Q|N3]; [subst; apply in_or_app; right; right; left; reflexivity|].
    destruct (string_dec k "ipv4") as [Q|N4]; [subst; left; reflexivity|]. destruct (string_dec k "ipv6") as [Q|N5]; [subst; right; left; reflexivity|].
    rewrite G4, G3, G2, G1 in H by assumption. apply in_or_app. right. exact (K0 k v H). }
  split; [other; other; rewrite G4, G3, G2 by discriminate; exact A1|].
  split; [other; other; rewrite G4, G3 by discriminate; exact A2|].
  split; [other; apply dget_dset_same|]. split; [apply dget_dset_same|].
  intros a v. rewrite bgp_of_attr, !bgp_of_dset by discriminate. rewrite B4, B3. rewrite <- (MV a v).
  destruct (string_dec a "_vrf") as [Q|Q].
  - subst a. destruct (dget "vrf" d) as [w|].
    + rewrite dget_dset_same. split.
      * intros H. left. split; [reflexivity|exact H].
      * intros [[_ H]|[[H _]|[_ [H _]]]]; [exact H|discriminate H|discriminate (H eq_refl)].
    + rewrite dget_dset_other by discriminate. split.
      * intros H. right. right. split; [discriminate|]. split; [reflexivity|exact H].
      * intros [[_ H]|[[H _]|[_ [_ H]]]]; [discriminate H|discriminate H|exact H].
  - assert (E : dget a (match dget "vrf" d with Some v => dset "_vrf" v (dset "multihop" (VInt 255) (bgp_of d0)) | None => dset "multihop" (VInt 255) (bgp_of d0) end)
                = dget a (dset "multihop" (VInt 255) (bgp_of d0))) by (destruct (dget "vrf" d); [apply dget_dset_other; exact Q|reflexivity]).
    rewrite E. destruct (string_dec a "multihop") as [M|M].
    + subst a. rewrite dget_dset_same. split.
      * intros H. injection H as H. right. left. split; [reflexivity|symmetry; exact H].
      * intros [[H _]|[[_ H]|[H _]]]; [discriminate H|subst; reflexivity|exfalso; apply H; reflexivity].
    + rewrite dget_dset_other by exact M. split.
      * intros H. right. right. split; [exact M|]. split; [intros W; contradiction|exact H].
      * intros [[H _]|[[H _]|[_ [_ H]]]]; [contradiction|contradiction|exact H].
Qed.

(* Every session becomes a tunnel link and its attributes become BGP attributes; its interfaces get addresses of the
   loopbacks. *)
Theorem sessions_exact : forall first name loopback links l,
  (forall s, In s l -> NoDup (dkeys (ms_attr s)) /\ forall i, In i (ms_intf s) -> NoDup (dkeys i)) ->
  exists idx, (links = [] -> idx = first) /\ (forall r x, links = r ++ [x] -> idx = (x + 1)%Z) /\
  Forall2 (fun s s' => session_spec idx (ms_attr s) (ms_attr s') /\
    Forall2 (fun i i' => forall n, dget "node" i = Some (VStr n) -> intf_spec (loopback n) (name idx) i i') (ms_intf s) (ms_intf s'))
    l (sessions first name loopback links l).
Proof.
  intros first name loopback links l ND. exists (next_linkindex first links). split; [intros E; subst; reflexivity|]. split.
  - intros r x E. subst links. unfold next_linkindex. rewrite rev_app_distr. reflexivity.
  - unfold sessions. set (idx := next_linkindex first links). clearbody idx. induction l as [|s l IH]; cbn [map]; constructor.
    + cbn [ms_attr ms_intf]. destruct (ND s (or_introl eq_refl)) as [N1 N2]. split; [apply session_attr_spec; exact N1|].
      induction (ms_intf s) as [|i r IHr]; cbn [map]; constructor.
      * intros n N. unfold node_of. rewrite N. apply session_intf_spec. apply N2. left; reflexivity.
      * apply IHr. intros j J. apply N2. right; exact J.
    + apply IH. intros x I. apply ND. right; exact I.
Qed.

Theorem multihop_errors_exact : forall loopback l n, n <> "" ->
  (In n (session_errors loopback l) <-> loopback n = None /\ exists s i, In s l /\ In i (ms_intf s) /\ dget "node" i = Some (VStr n)).
Proof.
  intros loopback l n NE. unfold session_errors. rewrite in_flat_map.
  assert (NO : forall i, node_of i = n <-> dget "node" i = Some (VStr n)).
  { intros i. unfold node_of. destruct (dget "node" i) as [[| | |s| |]|]; split; intros H; try (exfalso; apply NE; symmetry; exact H); try discriminate H.
    - subst; reflexivity.
    - injection H as H; exact H. }
  split.
  - intros [s [I H]]. apply in_flat_map in H. destruct H as [i [J H]]. destruct (loopback (node_of i)) eqn:L; [destruct H|]. destruct H as [H|[]].
    rewrite H in L. split; [exact L|]. exists s, i. split; [exact I|]. split; [exact J|]. apply NO. exact H.
  - intros [L [s [i [I [J H]]]]]. exists s. split; [exact I|]. apply in_flat_map. exists i. split; [exact J|]. apply NO in H. rewrite H, L. left; reflexivity.
Qed.

(* ------------------------------------------------------------------ *)
(* Address families                                                     *)

(* the value of an address family of a neighbor *)
Definition af_value (n : dict val) (x : string) : option val :=
  if memS x ["ipv4"; "ipv6"] then match dget "activate" n with Some (VDict a) => dget x a | _ => None end else dget x n.

Definition is_on (b : bool) : option val := if b then Some (VBool true) else None.

Lemma set_af_value : forall x on n y, y <> "activate" -> x <> "activate" -> af_value (set_af x on n) y = if String.eqb y x then is_on on else af_value n y.
Proof.
  intros x on n y NY NX. unfold set_af. set (upd := set_flag x on).
  assert (US : forall d, dget x (upd d) = is_on on) by (intros d; unfold upd, set_flag; destruct on; [apply dget_dset_same|apply dget_dpop_same]).
  assert (UO : forall d z, z <> x -> dget z (upd d) = dget z d).
  { intros d z N. unfold upd, set_flag; destruct on; [apply dget_dset_other; exact N|apply dget_dpop_other; exact N]. }
  clearbody upd. unfold af_value. destruct (memS x ["ipv4"; "ipv6"]) eqn:X.
  - rewrite dget_dset_same, dget_dset_other by exact NY. destruct (String.eqb_spec y x) as [Q|Q].
    + subst y. rewrite X. apply US.
    + destruct (memS y ["ipv4"; "ipv6"]); [|reflexivity]. rewrite (UO _ y Q). destruct (dget "activate" n) as [[| | | | |a]|]; reflexivity.
  - destruct (String.eqb_spec y x) as [Q|Q].
    + subst y. rewrite X. apply US.
    + rewrite !UO by (first [exact Q|intros W; apply NX; symmetry; exact W]). reflexivity.
Qed.

Lemma set_af_other : forall x on n k, k <> "activate" -> k <> x -> dget k (set_af x on n) = dget k n.
Proof.
  intros x on n k N1 N2. unfold set_af. destruct (memS x ["ipv4"; "ipv6"]); [apply dget_dset_other; exact N1|].
  unfold set_flag. destruct on; [apply dget_dset_other; exact N2|apply dget_dpop_other; exact N2].
Qed.

Lemma set_af_ip : forall x on n k, In k ["ipv4"; "ipv6"] -> dget k (set_af x on n) = dget k n.
Proof.
  intros x on n k K. assert (NA : k <> "activate") by (destruct K as [K|[K|[]]]; subst; discriminate).
  destruct (string_dec k x) as [Q|Q]; [|apply set_af_other; assumption]. subst x. unfold set_af. apply memS_true in K. rewrite K. apply dget_dset_other. exact NA.
Qed.

Definition fold_af (act : list string) (vals : list string) (n : dict val) : dict val := fold_left (fun n x => set_af x (memS x act) n) vals n.

Lemma fold_af_value : forall act vals n y, y <> "activate" -> ~ In "activate" vals ->
  af_value (fold_af act vals n) y = if memS y vals then is_on (memS y act) else af_value n y.
Proof.
  intros act vals. unfold fold_af. induction vals as [|x vals IH] using rev_ind; intros n y NY NA; [reflexivity|].
  rewrite fold_left_app. cbn [fold_left]. assert (NX : x <> "activate") by (intros Q; apply NA; apply in_or_app; right; left; exact Q).
  rewrite set_af_value by assumption. rewrite IH; [|exact NY|intros Q; apply NA; apply in_or_app; left; exact Q].
  destruct (String.eqb_spec y x) as [Q|Q].
  - subst y. assert (M : memS x (vals ++ [x]) = true) by (apply memS_true; apply in_or_app; right; left; reflexivity). rewrite M. reflexivity.
  - assert (M : memS y (vals ++ [x]) = memS y vals).
    { apply eq_true_iff_eq. rewrite !memS_true, in_app_iff. cbn [In]. split; [intros [W|[W|[]]]; [exact W|exfalso; apply Q; symmetry; exact W]|intros W; left; exact W]. }
    rewrite M. reflexivity.
Qed.

Lemma fold_af_ip : forall act vals n k, In k ["ipv4"; "ipv6"] -> dget k (fold_af act vals n) = dget k n.
Proof.
  intros act vals. unfold fold_af. induction vals as [|x vals IH]; intros n k K; cbn [fold_left]; [reflexivity|]. rewrite IH by exact K. apply set_af_ip. exact K.
Qed.

Lemma fold_af_other : forall act vals n k, k <> "activate" -> ~ In k vals -> dget k (fold_af act vals n) = dget k n.
Proof.
  intros act vals. unfold fold_af. induction vals as [|x vals IH]; intros n k K N; cbn [fold_left]; [reflexivity|].
  rewrite IH; [|exact K|intros Q; apply N; right; exact Q]. apply set_af_other; [exact K|]. intros Q. apply N. left. symmetry. exact Q.
Qed.

(* The address families of a multihop neighbor: the last transport that knows an address family decides. Other neighbors and
   other attributes do not change. *)
Theorem activation_exact : forall vals act n,
  ~ In "activate" (vals "ipv4") -> ~ In "activate" (vals "ipv6") ->
  let n' := augment_ngb vals act n in
  (~ In "multihop" (dkeys n) -> n' = n) /\
  (forall k, In k ["ipv4"; "ipv6"] -> dget k n' = dget k n) /\
  (forall k, k <> "activate" -> ~ In k (vals "ipv4") -> ~ In k (vals "ipv6") -> dget k n' = dget k n) /\
  (In "multihop" (dkeys n) -> forall y, y <> "activate" ->
    (In "ipv6" (dkeys n) -> In y (vals "ipv6") -> (In y (act "ipv6") -> af_value n' y = Some (VBool true)) /\ (~ In y (act "ipv6") -> af_value n' y = None)) /\
    (In "ipv4" (dkeys n) -> In y (vals "ipv4") -> (~ In "ipv6" (dkeys n) \/ ~ In y (vals "ipv6")) ->
       (In y (act "ipv4") -> af_value n' y = Some (VBool true)) /\ (~ In y (act "ipv4") -> af_value n' y = None)) /\
    ((~ In "ipv4" (dkeys n) \/ ~ In y (vals "ipv4")) -> (~ In "ipv6" (dkeys n) \/ ~ In y (vals "ipv6")) -> af_value n' y = af_value n y)).
Proof.
  intros vals act n NA4 NA6 n'. unfold augment_ngb in n'.
  destruct (dmem "multihop" n) eqn:MH.
  2:{ subst n'. split; [reflexivity|]. split; [reflexivity|]. split; [reflexivity|]. intros I. apply dmem_true in I. rewrite I in MH. discriminate MH. }
  set (n1 := if dmem "ipv4" n then fold_af (act "ipv4") (vals "ipv4") n else n).
  assert (E : n' = if dmem "ipv6" n1 then fold_af (act "ipv6") (vals "ipv6") n1 else n1) by reflexivity. clearbody n'.
  assert (I1 : forall k, In k ["ipv4"; "ipv6"] -> dget k n1 = dget k n) by (intros k K; unfold n1; destruct (dmem "ipv4" n); [apply fold_af_ip; exact K|reflexivity]).
  assert (D6 : dmem "ipv6" n1 = dmem "ipv6" n) by (unfold dmem; rewrite I1 by (right; left; reflexivity); reflexivity).
  rewrite D6 in E.
  assert (V1 : forall y, y <> "activate" -> af_value n1 y = if dmem "ipv4" n && memS y (vals "ipv4") then is_on (memS y (act "ipv4")) else af_value n y).
  { intros y Y. unfold n1. destruct (dmem "ipv4" n); [|reflexivity]. rewrite fold_af_value by assumption. reflexivity. }
  assert (V2 : forall y, y <> "activate" -> af_value n' y = if dmem "ipv6" n && memS y (vals "ipv6") then is_on (memS y (act "ipv6")) else af_value n1 y).
  { intros y Y. rewrite E. destruct (dmem "ipv6" n); [|reflexivity]. rewrite fold_af_value by assumption. reflexivity. }
  assert (ON : forall y l, (In y l -> is_on (memS y l) = Some (VBool true)) /\ (~ In y l -> is_on (memS y l) = None)).
  { intros y l. split; intros H; [apply memS_true in H|apply memS_false in H]; rewrite H; reflexivity. }
  assert (C : forall k y l, (dmem k n && memS y l)%bool = false <-> ~ In k (dkeys n) \/ ~ In y l).
  { intros k y l. rewrite andb_false_iff, memS_false. assert (E0 : dmem k n = false <-> ~ In k (dkeys n)).
    { rewrite <- dmem_true. destruct (dmem k n); split; intros H; [discriminate H|exfalso; apply H; reflexivity|discriminate|reflexivity]. }
    rewrite E0. reflexivity. }
  split; [intros N; exfalso; apply N; apply dmem_true; exact MH|]. split; [|split].
  - intros k K. rewrite E. destruct (dmem "ipv6" n); [rewrite fold_af_ip by exact K|]; apply I1; exact K.
  - intros k K N4 N6. rewrite E. assert (E1 : dget k n1 = dget k n) by (unfold n1; destruct (dmem "ipv4" n); [apply fold_af_other; assumption|reflexivity]).
    destruct (dmem "ipv6" n); [rewrite fold_af_other by assumption|]; exact E1.
  - intros _ y Y. split; [|split].
    + intros K I. apply dmem_true in K. apply memS_true in I. rewrite V2 by exact Y. rewrite K, I. cbn [andb]. apply ON.
    + intros K I N. apply dmem_true in K. apply memS_true in I. apply C in N. rewrite V2 by exact Y. rewrite N, V1 by exact Y. rewrite K, I. cbn [andb]. apply ON.
    + intros N4 N6. apply C in N4. apply C in N6. rewrite V2 by exact Y. rewrite N6, V1 by exact Y. rewrite N4. reflexivity.
Qed.

(* ------------------------------------------------------------------ *)
(* Loopbacks                                                            *)

(* the first loopback in a VRF *)
Definition vrf_loopback (l : list lintf) (v : string) (i : lintf) : Prop :=
  exists a b, l = a ++ i :: b /\ li_type i = "loopback" /\ li_vrf i = Some v /\ forall j, In j a -> ~ (li_type j = "loopback" /\ li_vrf j = Some v).

Definition no_loopback (l : list lintf) (v : string) : Prop := forall j, In j l -> ~ (li_type j = "loopback" /\ li_vrf j = Some v).

Lemma loopback_test : forall v i,
  (String.eqb (li_type i) "loopback" && match li_vrf i with Some w => String.eqb w v | None => false end)%bool = true <->
  li_type i = "loopback" /\ li_vrf i = Some v.
Proof.
  intros v i. rewrite andb_true_iff, String.eqb_eq. destruct (li_vrf i) as [w|].
  - rewrite String.eqb_eq. split; intros [A B]; (split; [exact A|]); [subst; reflexivity|injection B as B; exact B].
  - split; intros [_ B]; discriminate B.
Qed.

Lemma get_loopback_some : forall l v i, get_vrf_loopback l v = Some i <-> vrf_loopback l v i.
Proof.
  intros l v i. unfold get_vrf_loopback. induction l as [|x l IH]; cbn [find].
  - split; [intros H; discriminate H|]. intros [a [b [E _]]]. destruct a; discriminate E.
  - match goal with |- context [if ?c then _ else _] => destruct c eqn:C end.
    + apply loopback_test in C. split.
      * intros H. injection H as H. subst x. exists [], l. split; [reflexivity|]. split; [apply C|]. split; [apply C|]. intros j [].
      * intros [a [b [E [T [V N]]]]]. destruct a as [|y a]; cbn [app] in E; injection E as E1 E2; [subst; reflexivity|].
        exfalso. subst y. apply (N x (or_introl eq_refl)). exact C.
    + rewrite IH. split.
      * intros [a [b [E [T [V N]]]]]. exists (x :: a), b. split; [rewrite E; reflexivity|]. split; [exact T|]. split; [exact V|].
        intros j [J|J]; [|exact (N j J)]. subst j. intros W. apply loopback_test in W. rewrite W in C. discriminate C.
      * intros [a [b [E [T [V N]]]]]. destruct a as [|y a]; cbn [app] in E; injection E as E1 E2.
        -- exfalso. subst x. assert (W : li_type i = "loopback" /\ li_vrf i = Some v) by (split; assumption). apply loopback_test in W. rewrite W in C. discriminate C.
        -- exists a, b. split; [exact E2|]. split; [exact T|]. split; [exact V|]. intros j J. apply N. right; exact J.
Qed.

Lemma get_loopback_none : forall l v, get_vrf_loopback l v = None <-> no_loopback l v.
Proof.
  intros l v. unfold get_vrf_loopback, no_loopback. split.
  - intros H j J W. apply loopback_test in W. pose proof (find_none _ _ H j J) as N. cbv beta in N. rewrite W in N. discriminate N.
  - intros H. destruct (find _ l) as [i|] eqn:F; [|reflexivity]. apply find_some in F. destruct F as [I C]. apply loopback_test in C. exfalso. exact (H i I C).
Qed.

Section Loop.
Variable ip : string -> string.
Variable interfaces : string -> list lintf.
Variable vrf_feature : bool.

Definition is_multihop (n : mngb) : Prop := mn_multihop n = true /\ (mn_type n = "ebgp" \/ mn_type n = "localas_ibgp").

(* the addresses of the neighbor *)
Definition remote_ok (n n' : mngb) : Prop :=
  match mn_vrf n with
  | None => mn_ipv4 n' = mn_ipv4 n /\ mn_ipv6 n' = mn_ipv6 n
  | Some v => exists lb, vrf_loopback (interfaces (mn_name n)) v lb /\ mn_ipv4 n' = option_map ip (li_ipv4 lb) /\ mn_ipv6 n' = option_map ip (li_ipv6 lb)
  end.

(* the source of the session *)
Definition source_ok (node : string) (global : option lintf) (n n' : mngb) (e : list merr) : Prop :=
  match mn_src n with
  | None => mn_source n' = global /\ e = []
  | Some v =>
      (vrf_feature = false /\ mn_source n' = mn_source n /\ e = [MNoVrf node v]) \/
      (vrf_feature = true /\ no_loopback (interfaces node) v /\ mn_source n' = mn_source n /\ e = [MNoLoopback node (mn_name n) v]) \/
      (vrf_feature = true /\ (exists lb, vrf_loopback (interfaces node) v lb /\ mn_source n' = Some lb) /\ e = [])
  end.

Theorem loopbacks_exact : forall node global n n' e, fix_ngb ip interfaces vrf_feature node global n = (n', e) ->
  (mn_name n' = mn_name n /\ mn_type n' = mn_type n /\ mn_multihop n' = mn_multihop n /\ mn_vrf n' = mn_vrf n /\ mn_src n' = mn_src n) /\
  ((~ is_multihop n \/ exists v, mn_vrf n = Some v /\ no_loopback (interfaces (mn_name n)) v) -> n' = n /\ e = []) /\
  (is_multihop n -> (forall v, mn_vrf n = Some v -> ~ no_loopback (interfaces (mn_name n)) v) ->
   remote_ok n n' /\ source_ok node global n n' e).
Proof.
  intros node global n n' e H. unfold fix_ngb in H.
  assert (MH : is_multihop n <-> memS (mn_type n) ["ebgp"; "localas_ibgp"] = true /\ mn_multihop n = true).
  { unfold is_multihop. rewrite memS_true. cbn [In]. split; intros [A B].
    - split; [destruct B as [B|B]; [left|right; left]; symmetry; exact B|exact A].
    - split; [exact B|]. destruct A as [A|[A|[]]]; [left|right]; symmetry; exact A. }
  assert (FS : forall m m' f, fix_source interfaces vrf_feature node global m = (m', f) ->
     (mn_name m' = mn_name m /\ mn_type m' = mn_type m /\ mn_multihop m' = mn_multihop m /\ mn_vrf m' = mn_vrf m /\ mn_src m' = mn_src m) /\
     mn_ipv4 m' = mn_ipv4 m /\ mn_ipv6 m' = mn_ipv6 m /\ source_ok node global m m' f).
  { intros m m' f F. unfold fix_source in F. unfold source_ok. destruct (mn_src m) as [v|] eqn:S.
    - destruct vrf_feature; cbn [negb] in F.
      + destruct (get_vrf_loopback (interfaces node) v) as [lb|] eqn:G; injection F as F1 F2; subst m' f.
        * cbn. split; [repeat split; exact S|]. split; [reflexivity|]. split; [reflexivity|]. right. right. split; [reflexivity|]. split; [|reflexivity].
          exists lb. split; [apply get_loopback_some; exact G|reflexivity].
        * split; [repeat split|]. 1: exact S. split; [reflexivity|]. split; [reflexivity|]. right. left. split; [reflexivity|]. split; [apply get_loopback_none; exact G|].
          split; reflexivity.
      + injection F as F1 F2. subst m' f. split; [repeat split|]. 1: exact S. split; [reflexivity|]. split; [reflexivity|]. left. repeat split.
    - injection F as F1 F2. subst m' f. cbn. split; [repeat split; exact S|]. split; [reflexivity|]. split; [reflexivity|]. split; reflexivity. }
  destruct (memS (mn_type n) ["ebgp"; "localas_ibgp"]) eqn:T; cbn [negb] in H.
  2:{ injection H as H1 H2. subst n' e. split; [repeat split|]. split; [intros _; split; reflexivity|]. intros M. apply MH in M. destruct M as [M _]. discriminate M. }
  destruct (mn_multihop n) eqn:M; cbn [negb] in H.
  2:{ injection H as H1 H2. subst n' e. rewrite M. split; [repeat split|]. split; [intros _; split; reflexivity|]. intros Q. apply MH in Q. destruct Q as [_ Q]. discriminate Q. }
  assert (IM : is_multihop n) by (apply MH; split; reflexivity). destruct (mn_vrf n) as [v|] eqn:V.
  - destruct (get_vrf_loopback (interfaces (mn_name n)) v) as [lb|] eqn:G.
    + destruct (FS _ _ _ H) as [[A1 [A2 [A3 [A4 A5]]]] [B [C D]]]. cbn [set_addr mn_name mn_type mn_multihop mn_vrf mn_src mn_ipv4 mn_ipv6] in *.
      rewrite M in A3. rewrite V in A4. split; [split; [exact A1|split; [exact A2|split; [exact A3|split; [exact A4|exact A5]]]]|]. split.
      * intros [Q|[w [Q1 Q2]]]; [contradiction|]. injection Q1 as Q1. subst w. apply get_loopback_none in Q2. rewrite Q2 in G. discriminate G.
      * intros _ _. split; [unfold remote_ok; rewrite V; exists lb; split; [apply get_loopback_some; exact G|split; assumption]|].
        unfold source_ok in *. cbn [set_addr mn_src mn_source mn_name] in D. exact D.
    + injection H as H1 H2. subst n' e. rewrite M, V. split; [repeat split|]. split; [intros _; split; reflexivity|].
      intros _ Q. exfalso. apply (Q v eq_refl). apply get_loopback_none. exact G.
  - destruct (FS _ _ _ H) as [[A1 [A2 [A3 [A4 A5]]]] [B [C D]]]. rewrite M in A3. rewrite V in A4. split; [split; [exact A1|split; [exact A2|split; [exact A3|split; [exact A4|exact A5]]]]|]. split.
    + intros [Q|[w [Q _]]]; [contradiction|discriminate Q].
    + intros _ _. split; [unfold remote_ok; rewrite V; split; assumption|exact D].
Qed.
End Loop.

(* ------------------------------------------------------------------ *)
(* Cleanup                                                              *)

(* there is an interface made for a session, in the interfaces of the node or in the OSPF interfaces of a VRF *)
Definition has_session (n : mnode) : Prop :=
  (exists i, In (i, true) (md_intf n)) \/ (exists v ps l i, In (v, ps) (md_vrfs n) /\ In ("ospf", l) ps /\ In (i, true) l).

Lemma fakes_In : forall i b l, In (i, b) (fakes l) <-> In (i, b) l /\ b = false.
Proof. intros i b l. unfold fakes. rewrite filter_In. cbn [snd]. rewrite negb_true_iff. reflexivity. Qed.

Lemma fakes_le : forall l, length (fakes l) <= length l.
Proof. induction l as [|[i b] l IH]; [apply le_n|]. unfold fakes in *. cbn [filter snd]. destruct b; cbn [negb length]; lia. Qed.

Lemma fakes_length : forall l, negb (Nat.eqb (length (fakes l)) (length l)) = true <-> exists i, In (i, true) l.
Proof.
  induction l as [|[i b] l IH]; [split; [discriminate|intros [i []]]|]. unfold fakes in *. cbn [filter snd]. destruct b; cbn [negb length].
  - split; [intros _; exists i; left; reflexivity|]. intros _. apply negb_true_iff, Nat.eqb_neq. pose proof (fakes_le l) as LE. unfold fakes in LE. lia.
  - cbn [Nat.eqb]. rewrite IH. split; [intros [j J]; exists j; right; exact J|intros [j [J|J]]; [discriminate J|exists j; exact J]].
Qed.

Theorem cleanup_exact : forall n,
  md_intf (cleanup n) = filter (fun i => negb (snd i)) (md_intf n) /\
  (forall v ps, In (v, ps) (md_vrfs (cleanup n)) -> exists ps0, In (v, ps0) (md_vrfs n) /\ map fst ps = map fst ps0 /\
     forall l i, In ("ospf", l) ps -> ~ In (i, true) l) /\
  Forall2 (fun x y => fst x = fst y /\ Forall2 (fun p q => fst p = fst q /\ (fst p <> "ospf" -> snd p = snd q) /\
     (fst p = "ospf" -> snd q = filter (fun i => negb (snd i)) (snd p))) (snd x) (snd y)) (md_vrfs n) (md_vrfs (cleanup n)) /\
  (changed n = true <-> has_session n).
Proof.
  intros n. split; [reflexivity|]. split; [|split].
  - intros v ps I. cbn [cleanup md_vrfs] in I. apply in_map_iff in I. destruct I as [[v0 ps0] [E I]]. injection E as E1 E2. subst v0 ps.
    exists ps0. split; [exact I|]. split.
    + rewrite map_map. apply map_ext. intros [p l]. destruct (String.eqb p "ospf"); reflexivity.
    + intros l i J K. apply in_map_iff in J. destruct J as [[p l0] [E J]]. destruct (String.eqb_spec p "ospf") as [Q|Q].
      * injection E as E1 E2. subst l. apply fakes_In in K. destruct K as [_ K]. discriminate K.
      * injection E as E1 E2. contradiction.
  - cbn [cleanup md_vrfs]. induction (md_vrfs n) as [|[v ps] r IH]; cbn [map]; constructor; [|exact IH]. split; [reflexivity|]. cbn [snd].
    induction ps as [|[p l] ps IHp]; cbn [map]; constructor; [|exact IHp]. destruct (String.eqb_spec p "ospf") as [Q|Q].
    + split; [reflexivity|]. split; [intros N; contradiction|]. reflexivity.
    + split; [reflexivity|]. split; [reflexivity|]. intros W. contradiction.
  - unfold changed, has_session. rewrite orb_true_iff, fakes_length, existsb_exists. split.
    + intros [H|[[v ps] [I H]]]; [left; exact H|right]. apply existsb_exists in H. destruct H as [[p l] [J H]]. apply andb_true_iff in H. destruct H as [H1 H2].
      apply String.eqb_eq in H1. subst p. apply fakes_length in H2. destruct H2 as [i K]. exists v, ps, l, i. split; [exact I|]. split; [exact J|exact K].
    + intros [H|[v [ps [l [i [I [J K]]]]]]]; [left; exact H|right]. exists (v, ps). split; [exact I|]. apply existsb_exists. exists ("ospf", l). split; [exact J|].
      apply andb_true_iff. split; [reflexivity|]. apply fakes_length. exists i. exact K.
Qed.

Theorem support_exact : forall multihop activate act node n x,
  In x (support_errors multihop activate act node n) <->
  has_session n /\ ((x = MNoSupport node /\ multihop = false) \/ (x = MNoActivate node /\ act = true /\ activate = false)).
Proof.
  intros multihop activate act node n x. unfold support_errors. pose proof (cleanup_exact n) as [_ [_ [_ C]]]. destruct (changed n).
  - assert (HS : has_session n) by (apply C; reflexivity). rewrite in_app_iff. split.
    + intros H. split; [exact HS|]. destruct H as [H|H].
      * destruct multihop; [destruct H|]. destruct H as [H|[]]. left. split; [symmetry; exact H|reflexivity].
      * destruct act; [|destruct H]. destruct activate; [destruct H|]. destruct H as [H|[]]. right. split; [symmetry; exact H|split; reflexivity].
    + intros [_ [[H1 H2]|[H1 [H2 H3]]]]; subst; [left; left; reflexivity|right; left; reflexivity].
  - split; [intros []|]. intros [HS _]. apply C in HS. discriminate HS.
Qed.

(* ---------- cases ---------- *)

Definition ex_lb (n : string) : option (dict val) := if String.eqb n "c" then None else Some [("ipv4", VStr ("10.0.0." ++ n)%string)].
Definition ex_name (z : Z) : string := if Z.eqb z 8 then "_ebgp_multihop_8" else "?".
Definition ex_s1 : msession := mk_ms [("_linkname", VStr "bgp.multihop[1]"); ("password", VStr "x")]
  [[("node", VStr "a"); ("multihop", VInt 3); ("vrf", VStr "red")]; [("node", VStr "c")]].
Definition ex_s2 : msession := mk_ms [("bgp", VDict [("gtsm", VInt 1)])] [[("node", VStr "a")]; [("node", VStr "b")]].

Example ex_sessions : sessions 1 ex_name ex_lb [1; 7]%Z [ex_s1] =
  [mk_ms [("_linkname", VStr "bgp.multihop[1]"); ("bgp", VDict [("password", VStr "x")]); ("type", VStr "tunnel"); ("linkindex", VInt 8); ("_bgp_session", VBool true)]
     [[("node", VStr "a"); ("vrf", VStr "red"); ("bgp", VDict [("multihop", VInt 255); ("_vrf", VStr "red")]); ("ipv4", VStr "10.0.0.a");
       ("_bgp_session", VBool true); ("ifname", VStr "_ebgp_multihop_8")];
      [("node", VStr "c")]]] /\ session_errors ex_lb [ex_s1; ex_s2] = ["c"].
Proof. vm_compute. split; reflexivity. Qed.

(* Two sessions have the same link index, and a node with two sessions has two interfaces with the same name. *)
Theorem session_index_refuted : exists s1 s2 s1' s2',
  sessions 1 ex_name ex_lb [1; 7]%Z [s1; s2] = [s1'; s2'] /\ s1 <> s2 /\
  dget "linkindex" (ms_attr s1') = Some (VInt 8) /\ dget "linkindex" (ms_attr s2') = Some (VInt 8) /\
  exists i j, In i (ms_intf s1') /\ In j (ms_intf s2') /\ dget "node" i = Some (VStr "a") /\ dget "node" j = Some (VStr "a") /\
    dget "ifname" i = Some (VStr "_ebgp_multihop_8") /\ dget "ifname" j = Some (VStr "_ebgp_multihop_8").
Proof.
  exists ex_s1, ex_s2. eexists. eexists. split; [vm_compute; reflexivity|]. split; [discriminate|]. split; [reflexivity|]. split; [reflexivity|].
  eexists. eexists. split; [left; reflexivity|]. split; [left; reflexivity|]. repeat split; reflexivity.
Qed.

(* The multihop value of an interface is lost. *)
Theorem multihop_value_refuted : exists d, dget "multihop" d = Some (VInt 3) /\
  bgp_attr (fst (session_intf (ex_lb "a") "x" d)) "multihop" (VInt 255).
Proof. exists [("node", VStr "a"); ("multihop", VInt 3)]. split; [reflexivity|]. eexists. split; vm_compute; reflexivity. Qed.

(* A neighbor reached over both transports: the address families of the IPv4 transport are turned off. *)
Definition ex_vals (_ : string) : list string := ["ipv4"; "ipv6"; "vpnv4"; "evpn"].
Definition ex_act (t : string) : list string := if String.eqb t "ipv4" then ["ipv4"; "vpnv4"] else ["ipv6"].

Theorem dual_transport_refuted : exists n n', augment_ngb ex_vals ex_act n = n' /\
  In "multihop" (dkeys n) /\ In "ipv4" (dkeys n) /\ In "vpnv4" (ex_act "ipv4") /\ In "ipv4" (ex_act "ipv4") /\
  af_value n' "vpnv4" = None /\ af_value n' "ipv4" = None /\ af_value n' "ipv6" = Some (VBool true).
Proof.
  exists [("multihop", VInt 255); ("ipv4", VStr "10.0.0.1"); ("ipv6", VStr "2001:db8::1"); ("activate", VDict [("ipv4", VBool true)])].
  eexists. split; [reflexivity|]. split; [left; reflexivity|]. split; [right; left; reflexivity|]. split; [right; left; reflexivity|]. split; [left; reflexivity|].
  repeat split; vm_compute; reflexivity.
Qed.

Example ex_activation : augment_ngb ex_vals ex_act [("multihop", VInt 255); ("ipv4", VStr "10.0.0.1"); ("evpn", VBool true); ("activate", VDict [("ipv6", VBool true)])] =
  [("multihop", VInt 255); ("ipv4", VStr "10.0.0.1"); ("activate", VDict [("ipv4", VBool true)]); ("vpnv4", VBool true)].
Proof. vm_compute. reflexivity. Qed.

Definition ex_ints (n : string) : list lintf := [mk_li "lo1" "loopback" (Some "red") (Some ("10.1.0." ++ n)%string) None; mk_li "eth1" "p2p" (Some "blue") None None].

Example ex_fix : fix_ngb (fun a => "ip " ++ a)%string ex_ints true "x" None (mk_mn "y" "ebgp" true (Some "red") (Some "red") (Some "10.0.0.1") (Some "2001:db8::1") None) =
  (mk_mn "y" "ebgp" true (Some "red") (Some "red") (Some "ip 10.1.0.y") None (Some (mk_li "lo1" "loopback" (Some "red") (Some "10.1.0.x") None)), []) /\
  fix_ngb (fun a => a) ex_ints true "x" None (mk_mn "y" "ebgp" true None (Some "blue") (Some "10.0.0.1") None None) =
  (mk_mn "y" "ebgp" true None (Some "blue") (Some "10.0.0.1") None None, [MNoLoopback "x" "y" "blue"]).
Proof. vm_compute. split; reflexivity. Qed.

(* Interfaces made for sessions stay in the VRF interfaces of other routing protocols. *)
Theorem vrf_cleanup_refuted : exists n v ps l, In (v, ps) (md_vrfs (cleanup n)) /\ In ("isis", l) ps /\ In ("_ebgp_multihop_8", true) l.
Proof.
  exists (mk_md [("eth1", false); ("_ebgp_multihop_8", true)] [("red", [("ospf", [("_ebgp_multihop_8", true)]); ("isis", [("_ebgp_multihop_8", true)])])]).
  exists "red", [("ospf", []); ("isis", [("_ebgp_multihop_8", true)])], [("_ebgp_multihop_8", true)]. split; [left; reflexivity|]. split; [right; left; reflexivity|left; reflexivity].
Qed.

Print Assumptions sessions_exact.
Print Assumptions multihop_errors_exact.
Print Assumptions activation_exact.
Print Assumptions loopbacks_exact.
Print Assumptions cleanup_exact.
Print Assumptions support_exact.
Print Assumptions session_index_refuted.
Print Assumptions multihop_value_refuted.
Print Assumptions dual_transport_refuted.
Print Assumptions vrf_cleanup_refuted.
