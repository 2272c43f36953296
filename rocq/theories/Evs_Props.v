(* Properties of EVPN sessions, VLAN services, VLAN bundles and EVPN checks of nodes. *)
From Coq Require Import String Ascii ZArith Lia Bool List.
From Verif Require Import Base Box_Model Vrf_Model Evpn_Model Evs_Model Vrf_Props Mod_Props Evpn_Props Vlb_Props.
Import ListNotations.
Local Open Scope string_scope.
Local Open Scope list_scope.

(* ------------------------------------------------------------------ *)
(* C211: EVPN address family of BGP sessions                            *)

Definition evpn_session (sessions : list string) (nodes : dict (option (list string))) (b : enb) : Prop :=
  In (nb_type b) sessions /\ exists ms, dget (nb_name b) nodes = Some (Some ms) /\ In "evpn" ms.

Theorem evpn_sessions_exact : forall sessions nodes l l',
  enable_evpn_af sessions nodes l = Ok l' ->
  Forall2 (fun b b' => nb_name b' = nb_name b /\ nb_type b' = nb_type b
    /\ (nb_evpn b' = true <-> nb_evpn b = true \/ evpn_session sessions nodes b)) l l'.
Proof.
  intros sessions nodes. induction l as [|b r IH]; intros l' H; cbn [enable_evpn_af] in H.
  - injection H as H. subst l'. constructor.
  - destruct (memS (nb_type b) sessions) eqn:M.
    + destruct (dget (nb_name b) nodes) as [[ms|]|] eqn:G; [|discriminate H|discriminate H].
      destruct (enable_evpn_af sessions nodes r) as [r'|e]; [|discriminate H]. injection H as H. subst l'.
      constructor; [|apply IH; reflexivity]. cbn [nb_name nb_type nb_evpn]. split; [reflexivity|]. split; [reflexivity|].
      apply memS_true in M. destruct (memS "evpn" ms) eqn:E.
      * apply memS_true in E. split; [intros _; right|intros _; reflexivity]. split; [exact M|]. exists ms. split; assumption.
      * apply memS_false in E. split; [intros Q; left; exact Q|]. intros [Q|[_ [ms' [G' E']]]]; [exact Q|].
        rewrite G in G'. injection G' as G'. subst ms'. contradiction.
    + destruct (enable_evpn_af sessions nodes r) as [r'|e]; [|discriminate H]. injection H as H. subst l'.
      constructor; [|apply IH; reflexivity]. split; [reflexivity|]. split; [reflexivity|].
      apply memS_false in M. split; [intros Q; left; exact Q|]. intros [Q|[Q _]]; [exact Q|contradiction].
Qed.

(* The transformation crashes exactly when a neighbor over a matching session has no list of modules. *)
Theorem evpn_sessions_crash : forall sessions nodes l,
  (exists e, enable_evpn_af sessions nodes l = Err e) <->
  exists b, In b l /\ In (nb_type b) sessions /\ forall ms, dget (nb_name b) nodes <> Some (Some ms).
Proof.
  intros sessions nodes. induction l as [|b r IH]; cbn [enable_evpn_af].
  - split; [intros [e H]; discriminate H|intros [b [[] _]]].
  - destruct (memS (nb_type b) sessions) eqn:M.
    + apply memS_true in M. destruct (dget (nb_name b) nodes) as [[ms|]|] eqn:G.
      * destruct (enable_evpn_af sessions nodes r) as [r'|e] eqn:R.
        -- split; [intros [e H]; discriminate H|]. intros [c [[C|C] [T N]]].
           ++ subst c. exfalso. exact (N _ G).
           ++ exfalso. destruct (proj2 IH) as [e Q]; [exists c; auto|discriminate Q].
        -- split; [intros _|intros _; exists e; reflexivity]. destruct (proj1 IH) as [c [C Q]]; [exists e; reflexivity|]. exists c. split; [right; exact C|exact Q].
      * split; [intros _|intros _; eexists; reflexivity]. exists b. split; [left; reflexivity|]. split; [exact M|]. intros ms. rewrite G. discriminate.
      * split; [intros _|intros _; eexists; reflexivity]. exists b. split; [left; reflexivity|]. split; [exact M|]. intros ms. rewrite G. discriminate.
    + apply memS_false in M. destruct (enable_evpn_af sessions nodes r) as [r'|e] eqn:R.
      * split; [intros [e H]; discriminate H|]. intros [c [[C|C] [T N]]]; [subst c; contradiction|].
        exfalso. destruct (proj2 IH) as [e Q]; [exists c; auto|discriminate Q].
      * split; [intros _|intros _; exists e; reflexivity]. destruct (proj1 IH) as [c [C Q]]; [exists e; reflexivity|]. exists c. split; [right; exact C|exact Q].
Qed.

Example evpn_sessions_case :
  enable_evpn_af ["ibgp"] [("a", Some ["bgp"; "evpn"]); ("b", Some ["bgp"]); ("h", None)]
    [mk_enb "a" "ibgp" false; mk_enb "b" "ibgp" false; mk_enb "h" "ebgp" false] =
  Ok [mk_enb "a" "ibgp" true; mk_enb "b" "ibgp" false; mk_enb "h" "ebgp" false]
  /\ enable_evpn_af ["ibgp"] [("h", None)] [mk_enb "h" "ibgp" false] = Err "h".
Proof. split; reflexivity. Qed.

(* ------------------------------------------------------------------ *)
(* C212: AS number of EVPN route targets                                *)

(* absent, null, false, zero, empty *)
Definition unset (o : option val) : Prop := o = None \/ exists v, o = Some v /\ truthy v = false.

Theorem evpn_asn_exact : forall ea va ba z,
  get_usable_evpn_asn ea va ba = Some z <->
  z <> 0%Z /\ (ea = Some (VInt z) \/ (unset ea /\ va = Some (VInt z)) \/ (unset ea /\ unset va /\ ba = Some (VInt z))).
Proof.
  assert (OR : forall a b c, orv a b = Some (VInt c) /\ truthy (VInt c) = true <->
            (truthy (VInt c) = true /\ (a = Some (VInt c) \/ (unset a /\ b = Some (VInt c))))).
  { intros a b c. unfold orv. split.
    - intros [H T]. split; [exact T|]. destruct a as [v|]; [|right; split; [left; reflexivity|exact H]].
      destruct (truthy v) eqn:E; [left; exact H|]. right. split; [right; exists v; split; [reflexivity|exact E]|exact H].
    - intros [T [H|[U H]]]; (split; [|exact T]).
      + subst a. rewrite T. reflexivity.
      + destruct U as [U|[v [U F]]]; subst a; [exact H|]. rewrite F. exact H. }
  assert (TZ : forall c, truthy (VInt c) = true <-> c <> 0%Z).
  { intros c. cbn [truthy]. destruct (Z.eqb_spec c 0) as [E|E]; cbn [negb]; split; intros Q; congruence. }
  intros ea va ba z. unfold get_usable_evpn_asn. rewrite <- TZ.
  assert (M : match orv ea (orv va ba) with Some (VInt c) => if truthy (VInt c) then Some c else None | _ => None end = Some z <->
              (orv ea (orv va ba) = Some (VInt z) /\ truthy (VInt z) = true)).
  { split.
    - intros H. destruct (orv ea (orv va ba)) as [v|]; [|discriminate H]. destruct v as [| |c| | |]; try discriminate H.
      destruct (truthy (VInt c)) eqn:T; [|discriminate H]. injection H as H. subst c. split; [reflexivity|exact T].
    - intros [H T]. rewrite H, T. reflexivity. }
  rewrite M, OR. specialize (OR va ba z). split.
  - intros [T [H|[U H]]]; split; try exact T; [left; exact H|]. right. destruct (proj1 OR (conj H T)) as [_ [Q|[U' Q]]]; [left|right]; auto.
  - intros [T [H|[[U H]|[U [U' H]]]]]; split; try exact T; [left; exact H| |]; right; (split; [exact U|]); apply OR; split; try exact T; [left; exact H|right; split; assumption].
Qed.

Example evpn_asn_case :
  get_usable_evpn_asn None (Some (VInt 0)) (Some (VInt 65000)) = Some 65000%Z
  /\ get_usable_evpn_asn (Some (VInt 65001)) None (Some (VInt 65000)) = Some 65001%Z
  /\ get_usable_evpn_asn (Some (VBool true)) None (Some (VInt 65000)) = None
  /\ get_usable_evpn_asn None None None = None.
Proof. repeat split. Qed.

(* ------------------------------------------------------------------ *)
(* C213: VLAN services and VLAN bundles                                 *)

(* The VLAN belongs to a global VRF that has a bundle type. *)
Definition bundled (vrfs : dict svrf) (v : svlan) (r : string) (x : svrf) (ev : red) (b : string) : Prop :=
  sv_vrf v = Some r /\ dget r vrfs = Some x /\ r_evpn x = Some ev /\ b_type ev = Some b /\ b <> "".
Definition alone (vrfs : dict svrf) (v : svlan) : Prop := forall r x ev b, ~ bundled vrfs v r x ev b.

Definition own_evi (v : svlan) (i : Z) : Prop := exists e, sv_evpn v = Some e /\ e_evi e = Some i /\ i <> 0%Z.

(* EVI of a VLAN that is a service of its own *)
Definition service_evi (v : svlan) (i : Z) : Prop := own_evi v i \/ (i = sv_id v /\ forall j, ~ own_evi v j).

(* one direction of route targets: configured ones or AS:EVI *)
Definition service_rt (asn : option Z) (own : option (list string)) (i : Z) (l : option (list string)) : Prop :=
  match own with
  | Some o => l = Some o
  | None => exists a, (asn = Some a \/ (asn = None /\ a = 0%Z)) /\ l = Some [(zdec a ++ ":" ++ zdec i)%string]
  end.

(* VLANs that become members of the bundle of a VRF, in the order of evpn.vlans *)
Inductive member (vlans : dict svlan) (vrfs : dict svrf) (r n : string) : Prop :=
| member_intro : forall v x ev b, dget n vlans = Some v -> bundled vrfs v r x ev b -> sv_evpn v = None -> member vlans vrfs r n.
Inductive members (vlans : dict svlan) (vrfs : dict svrf) (r : string) : list string -> list string -> list Z -> Prop :=
| members_nil : members vlans vrfs r [] [] []
| members_in : forall n v names l ids, dget n vlans = Some v -> member vlans vrfs r n -> members vlans vrfs r names l ids ->
    members vlans vrfs r (n :: names) (n :: l) (sv_id v :: ids)
| members_out : forall n names l ids, ~ member vlans vrfs r n -> members vlans vrfs r names l ids ->
    members vlans vrfs r (n :: names) l ids.

Section services.
Variables (asn : option Z) (valid : list string) (vl0 : dict svlan) (vr0 : dict svrf).

Definition bt0 (r : string) : option string :=
  match dget r vr0 with
  | Some x => match r_evpn x with
              | Some ev => match b_type ev with Some b => if String.eqb b "" then None else Some b | None => None end
              | None => None
              end
  | None => None
  end.
Definition evi0 (x : svrf) (ev : red) : option Z := match b_evi ev with Some i => Some i | None => r_id x end.
Definition bev0 (r : string) : option Z :=
  match dget r vr0 with Some x => match r_evpn x with Some ev => evi0 x ev | None => None end | None => None end.
Definition sevi (v : svlan) : Z :=
  match sv_evpn v with Some e => match e_evi e with Some i => if (i =? 0)%Z then sv_id v else i | None => sv_id v end | None => sv_id v end.
Definition srt (o : option (list string)) (v : svlan) : option (list string) :=
  match o with Some l => Some l | None => Some [fmt_rd (zdec (match asn with Some a => a | None => 0%Z end)) (sevi v)] end.
Definition based (v : svlan) : svlan :=
  mk_svlan (sv_id v) (sv_vrf v) (Some (mk_evd (Some (sevi v)) (match sv_evpn v with Some e => e_bundle e | None => None end)
    (srt (match sv_evpn v with Some e => e_imp e | None => None end) v) (srt (match sv_evpn v with Some e => e_exp e | None => None end) v))).
Definition final (v : svlan) : svlan :=
  match sv_vrf v with
  | Some r => match bt0 r with
              | Some b => match sv_evpn v with
                          | Some _ => v
                          | None => mk_svlan (sv_id v) (sv_vrf v) (Some (mk_evd (bev0 r) (Some b) None None))
                          end
              | None => based v
              end
  | None => based v
  end.
Definition joins (r n : string) : bool :=
  match dget n vl0 with
  | Some v => match sv_vrf v with
              | Some r' => String.eqb r r' && match bt0 r with Some _ => true | None => false end && match sv_evpn v with None => true | Some _ => false end
              | None => false
              end
  | None => false
  end.
Definition refs (r n : string) : bool :=
  match dget n vl0 with Some v => match sv_vrf v with Some r' => String.eqb r r' | None => false end | None => false end.
Definition idof (n : string) : Z := match dget n vl0 with Some v => sv_id v | None => 0%Z end.
Definition upd (x : svrf) (ms : list string) : svrf :=
  match ms, r_evpn x with
  | [], _ => x
  | _, None => x
  | _, Some ev => mk_svrf (r_id x) (Some (mk_red (b_type ev) (evi0 x ev) (Some (match b_vlans ev with Some l => l | None => [] end ++ ms))
                    (Some (match b_ids ev with Some l => l | None => [] end ++ map idof ms))))
  end.
Definition newr (names : list string) (r : string) : option svrf :=
  match dget r vr0 with
  | None => if existsb (refs r) names then Some (mk_svrf None None) else None
  | Some x => Some (upd x (filter (joins r) names))
  end.
Definition newv (names : list string) (n : string) : option svlan :=
  match dget n vl0 with Some v => Some (if memS n names then final v else v) | None => None end.
Definition based_errs (n : string) (v : svlan) : list serr :=
  (match asn with Some _ => [] | None => [EAsn] end) ++ if negb ((1 <=? sevi v)%Z && (sevi v <=? 65535)%Z) then [EEvi n] else [].
Definition errs (n : string) : list serr :=
  match dget n vl0 with
  | None => []
  | Some v => match sv_vrf v with
              | None => based_errs n v
              | Some r => match bt0 r with
                          | None => based_errs n v
                          | Some b => (if negb (memS b valid) then [EType r] else []) ++ match sv_evpn v with Some _ => [EBundleEvpn n] | None => [] end
                          end
              end
  end.

Definition inv (names : list string) (t : sst) (e0 : list serr) : Prop :=
  (forall n, dget n (s_vlans t) = newv names n) /\ (forall r, dget r (s_vrfs t) = newr names r) /\ s_errs t = e0 ++ flat_map errs names.

Lemma bt_newr : forall names r t, dget r (s_vrfs t) = newr names r -> bundle_type r t = bt0 r.
Proof.
  intros names r t H. unfold bundle_type. rewrite H. unfold newr, bt0. destruct (dget r vr0) as [x|].
  - unfold upd. destruct (filter (joins r) names) as [|m ms]; [reflexivity|]. destruct (r_evpn x) as [ev|] eqn:E; [reflexivity|]. rewrite E. reflexivity.
  - destruct (existsb (refs r) names); reflexivity.
Qed.

Lemma memS_snoc : forall n names m, memS n (names ++ [m]) = memS n names || String.eqb n m.
Proof. intros n names m. unfold memS. rewrite existsb_app. cbn [existsb]. rewrite orb_false_r. reflexivity. Qed.

Lemma newv_snoc : forall names n m v, ~ In m names -> dget m vl0 = Some v ->
  newv (names ++ [m]) n = if String.eqb n m then Some (final v) else newv names n.
Proof.
  intros names n m v N G. unfold newv. rewrite memS_snoc. destruct (String.eqb_spec n m) as [E|E].
  - subst n. rewrite G, orb_true_r. reflexivity.
  - rewrite orb_false_r. reflexivity.
Qed.

Lemma newr_snoc_same : forall names m r, joins r m = false -> (dget r vr0 = None -> refs r m = false \/ existsb (refs r) names = true) ->
  newr (names ++ [m]) r = newr names r.
Proof.
  intros names m r J R. unfold newr. rewrite filter_app, existsb_app. cbn [filter existsb]. rewrite J, app_nil_r, orb_false_r.
  destruct (dget r vr0) as [x|]; [reflexivity|]. destruct (R eq_refl) as [Q|Q]; rewrite Q; [rewrite orb_false_r|]; reflexivity.
Qed.

Lemma based_step : forall names n v t e0, ~ In n names -> dget n vl0 = Some v -> inv names t e0 ->
  final v = based v -> (forall r, joins r n = false) -> (forall r, dget r vr0 = None -> refs r n = false) -> errs n = based_errs n v ->
  inv (names ++ [n]) (vlan_based_service asn n v t) e0.
Proof.
  intros names n v t e0 N G [I1 [I2 I3]] F J R E.
  assert (T : vlan_based_service asn n v t = mk_sst (dset n (based v) (s_vlans t)) (s_vrfs t) (s_errs t ++ based_errs n v)).
  { unfold vlan_based_service, based_errs, based, srt, sevi, add_err. destruct (sv_evpn v) as [e|]; cbn [e_evi e_imp e_exp e_bundle s_vlans s_vrfs s_errs]; destruct asn; rewrite <- ?app_assoc; reflexivity. }
  rewrite T. split; [|split]; cbn [s_vlans s_vrfs s_errs].
  - intros k. rewrite (newv_snoc _ _ _ _ N G), F. destruct (String.eqb_spec k n) as [Q|Q].
    + subst k. apply dget_dset_same.
    + rewrite dget_dset_other by exact Q. apply I1.
  - intros r. rewrite (newr_snoc_same _ _ _ (J r)); [apply I2|]. intros Q. left. apply R. exact Q.
  - rewrite I3, flat_map_app. cbn [flat_map]. rewrite app_nil_r, E, app_assoc. reflexivity.
Qed.

Lemma step_inv : forall names n v t e0, ~ In n names -> dget n vl0 = Some v -> inv names t e0 ->
  inv (names ++ [n]) (create_vlan_service asn valid t n) e0.
Proof.
  intros names n v t e0 N G I. destruct I as [I1 [I2 I3]]. unfold create_vlan_service.
  assert (GN : dget n (s_vlans t) = Some v).
  { rewrite I1. unfold newv. rewrite G. apply memS_false in N. rewrite N. reflexivity. }
  rewrite GN. destruct (sv_vrf v) as [r|] eqn:V.
  2:{ apply based_step; auto; [split; auto|unfold final; rewrite V; reflexivity| | |].
      - intros r. unfold joins. rewrite G, V. reflexivity.
      - intros r _. unfold refs. rewrite G, V. reflexivity.
      - unfold errs. rewrite G, V. reflexivity. }
  cbv zeta.
  (* the VRF is created when missing *)
  assert (TQ : s_vlans (touch r t) = s_vlans t /\ s_errs (touch r t) = s_errs t /\
               forall k, dget k (s_vrfs (touch r t)) = if String.eqb k r then (match newr names r with Some x => Some x | None => Some (mk_svrf None None) end) else newr names k).
  { unfold touch. destruct (dget r (s_vrfs t)) as [x|] eqn:D.
    - split; [reflexivity|]. split; [reflexivity|]. intros k. destruct (String.eqb_spec k r) as [Q|Q]; [subst k; rewrite <- I2, D; reflexivity|apply I2].
    - cbn [s_vlans s_errs s_vrfs]. split; [reflexivity|]. split; [reflexivity|]. intros k. destruct (String.eqb_spec k r) as [Q|Q].
      + subst k. rewrite dget_dset_same, <- I2, D. reflexivity.
      + rewrite dget_dset_other by exact Q. apply I2. }
  destruct TQ as [T1 [T2 T3]].
  assert (NR : forall k, joins k n = false -> dget k (s_vrfs (touch r t)) = newr (names ++ [n]) k).
  { intros k J. rewrite T3. destruct (String.eqb_spec k r) as [Q|Q].
    - subst k. unfold newr. destruct (dget r vr0) as [x|] eqn:D.
      + rewrite filter_app. cbn [filter]. rewrite J, app_nil_r. reflexivity.
      + rewrite existsb_app. cbn [existsb]. unfold refs at 3. rewrite G, V, String.eqb_refl, orb_true_r. destruct (existsb (refs r) names); reflexivity.
    - symmetry. apply newr_snoc_same; [exact J|]. intros _. left. unfold refs. rewrite G, V. apply String.eqb_neq. exact Q. }
  assert (BT : bundle_type r (touch r t) = bt0 r).
  { unfold bundle_type. rewrite T3, String.eqb_refl. unfold newr, bt0. destruct (dget r vr0) as [x|].
    - unfold upd. destruct (filter (joins r) names) as [|m ms]; [reflexivity|]. destruct (r_evpn x) as [ev|] eqn:E; [reflexivity|]. rewrite E. reflexivity.
    - destruct (existsb (refs r) names); reflexivity. }
  rewrite BT. destruct (bt0 r) as [b|] eqn:B.
  2:{ assert (J : forall k, joins k n = false).
      { intros k. unfold joins. rewrite G, V. destruct (String.eqb_spec k r) as [Q|Q]; [subst k; rewrite B; reflexivity|reflexivity]. }
      assert (T : vlan_based_service asn n v (touch r t) = mk_sst (dset n (based v) (s_vlans t)) (s_vrfs (touch r t)) (s_errs t ++ based_errs n v)).
      { unfold vlan_based_service, based_errs, based, srt, sevi, add_err. destruct (sv_evpn v) as [e|]; cbn [e_evi e_imp e_exp e_bundle s_vlans s_vrfs s_errs]; rewrite T1, T2; destruct asn; rewrite <- ?app_assoc; reflexivity. }
      rewrite T. split; [|split]; cbn [s_vlans s_vrfs s_errs].
      - intros k. rewrite (newv_snoc _ _ _ _ N G). unfold final. rewrite V, B. destruct (String.eqb_spec k n) as [Q|Q].
        + subst k. apply dget_dset_same.
        + rewrite dget_dset_other by exact Q. apply I1.
      - intros k. apply NR. apply J.
      - rewrite I3, flat_map_app. cbn [flat_map]. rewrite app_nil_r, app_assoc. f_equal. unfold errs. rewrite G, V, B. reflexivity. }
  (* bundle *)
  assert (XR : exists x ev, dget r vr0 = Some x /\ r_evpn x = Some ev /\ b_type ev = Some b /\ String.eqb b "" = false).
  { unfold bt0 in B. destruct (dget r vr0) as [x|]; [|discriminate B]. destruct (r_evpn x) as [ev|] eqn:E; [|discriminate B].
    destruct (b_type ev) as [b'|] eqn:Q; [|discriminate B]. destruct (String.eqb b' "") eqn:Z; [discriminate B|]. injection B as B. subst b'.
    exists x, ev. auto. }
  destruct XR as [x [ev [D [E [Q Z]]]]].
  unfold vlan_aware_bundle_service, add_err. cbn [s_vlans s_vrfs s_errs]. rewrite T3, String.eqb_refl.
  assert (NW : newr names r = Some (upd x (filter (joins r) names))) by (unfold newr; rewrite D; reflexivity).
  rewrite NW. cbv iota. destruct (sv_evpn v) as [e|] eqn:SE.
  - assert (J : forall k, joins k n = false).
    { intros k. unfold joins. rewrite G, V, SE, andb_false_r. reflexivity. }
    split; [|split]; cbn [s_vlans s_vrfs s_errs].
    + intros k. rewrite T1, (newv_snoc _ _ _ _ N G). unfold final. rewrite V, B, SE. destruct (String.eqb_spec k n) as [K|K]; [subst k; exact GN|apply I1].
    + intros k. apply NR. apply J.
    + rewrite T2, I3, flat_map_app. cbn [flat_map]. rewrite app_nil_r, <- !app_assoc. f_equal. f_equal. unfold errs. rewrite G, V, B, SE. reflexivity.
  - assert (JR : joins r n = true).
    { unfold joins. rewrite G, V, SE, B, String.eqb_refl. reflexivity. }
    assert (UR : exists lv li, r_evpn (upd x (filter (joins r) names)) = Some (mk_red (Some b) (b_evi (match r_evpn (upd x (filter (joins r) names)) with Some z => z | None => ev end)) lv li)
        /\ r_id (upd x (filter (joins r) names)) = r_id x
        /\ (match b_evi (match r_evpn (upd x (filter (joins r) names)) with Some z => z | None => ev end) with Some i => Some i | None => r_id x end) = evi0 x ev
        /\ match lv with Some l => l | None => [] end = match b_vlans ev with Some l => l | None => [] end ++ filter (joins r) names
        /\ match li with Some l => l | None => [] end = match b_ids ev with Some l => l | None => [] end ++ map idof (filter (joins r) names)).
    { unfold upd. destruct (filter (joins r) names) as [|m ms].
      - exists (b_vlans ev), (b_ids ev). rewrite E. destruct ev as [bt be bv bi]. cbn [b_type b_evi b_vlans b_ids map] in *. subst bt. rewrite !app_nil_r. unfold evi0. repeat split.
      - rewrite E. do 2 eexists. cbn [r_evpn r_id b_type b_evi]. rewrite Q. split; [reflexivity|]. split; [reflexivity|]. split; [|split; reflexivity].
        unfold evi0. destruct (b_evi ev); [reflexivity|]. destruct (r_id x); reflexivity. }
    destruct UR as [lv [li [U1 [U2 [U3 [U4 U5]]]]]]. set (be := b_evi (match r_evpn (upd x (filter (joins r) names)) with Some z => z | None => ev end)) in *. clearbody be.
    rewrite U1. cbn [b_type b_evi b_vlans b_ids]. rewrite U2, U3, U4, U5.
    split; [|split]; cbn [s_vlans s_vrfs s_errs].
    + intros k. rewrite T1, (newv_snoc _ _ _ _ N G). unfold final. rewrite V, B, SE. unfold bev0. rewrite D, E. destruct (String.eqb_spec k n) as [K|K].
      * subst k. apply dget_dset_same.
      * rewrite dget_dset_other by exact K. apply I1.
    + intros k. destruct (String.eqb_spec k r) as [K|K].
      * subst k. rewrite dget_dset_same. unfold newr. rewrite D, filter_app. cbn [filter]. rewrite JR. unfold upd.
        destruct (filter (joins r) names ++ [n]) as [|m ms] eqn:S; [destruct (filter (joins r) names); discriminate S|]. rewrite E, Q, <- S, map_app, <- !app_assoc.
        unfold idof at 2. cbn [map]. unfold idof at 2. rewrite G. reflexivity.
      * rewrite dget_dset_other by exact K. apply NR. unfold joins. rewrite G, V. apply String.eqb_neq in K. rewrite K. reflexivity.
    + rewrite T2, I3, flat_map_app. cbn [flat_map]. rewrite app_nil_r, <- app_assoc. f_equal. f_equal. unfold errs. rewrite G, V, B, SE, app_nil_r. reflexivity.
Qed.

Lemma services_inv : forall names e0, NoDup names -> (forall n, In n names -> In n (dkeys vl0)) ->
  inv names (vlan_services asn valid names (mk_sst vl0 vr0 e0)) e0.
Proof.
  intros names e0. induction names as [|n names IH] using rev_ind; intros ND K.
  - unfold vlan_services. cbn [fold_left]. split; [|split]; cbn [s_vlans s_vrfs s_errs].
    + intros n. unfold newv. cbn [memS existsb]. destruct (dget n vl0); reflexivity.
    + intros r. unfold newr. cbn [filter existsb]. destruct (dget r vr0) as [x|]; [|reflexivity]. reflexivity.
    + cbn [flat_map]. rewrite app_nil_r. reflexivity.
  - unfold vlan_services. rewrite fold_left_app. cbn [fold_left].
    apply NoDup_app_elim in ND. destruct ND as [ND [_ DJ]].
    assert (N : ~ In n names) by (intros Q; apply (DJ n Q); left; reflexivity).
    destruct (dget n vl0) as [v|] eqn:G.
    2:{ apply dget_None in G. exfalso. apply G. apply K. apply in_or_app. right. left. reflexivity. }
    apply step_inv with (v := v); auto. apply IH; auto. intros k Q. apply K. apply in_or_app. left. exact Q.
Qed.
End services.

Lemma bt0_iff : forall vr0 v r, sv_vrf v = Some r -> forall b,
  bt0 vr0 r = Some b <-> exists x ev, bundled vr0 v r x ev b.
Proof.
  intros vr0 v r V b. unfold bt0, bundled. split.
  - intros H. destruct (dget r vr0) as [x|]; [|discriminate H]. destruct (r_evpn x) as [ev|] eqn:E; [|discriminate H].
    destruct (b_type ev) as [b'|] eqn:Q; [|discriminate H]. destruct (String.eqb_spec b' "") as [Z|Z]; [discriminate H|]. injection H as H. subst b'.
    exists x, ev. auto.
  - intros [x [ev [_ [D [E [Q Z]]]]]]. rewrite D, E, Q. apply String.eqb_neq in Z. rewrite Z. reflexivity.
Qed.

Lemma alone_bt0 : forall vr0 v, alone vr0 v <-> match sv_vrf v with Some r => bt0 vr0 r = None | None => True end.
Proof.
  intros vr0 v. destruct (sv_vrf v) as [r|] eqn:V.
  - split.
    + intros A. destruct (bt0 vr0 r) as [b|] eqn:B; [|reflexivity]. apply (bt0_iff _ _ _ V) in B. destruct B as [x [ev B]]. exfalso. exact (A _ _ _ _ B).
    + intros B r' x ev b H. assert (R : r' = r) by (destruct H as [H _]; congruence). subst r'.
      assert (Q : bt0 vr0 r = Some b) by (apply (bt0_iff _ _ _ V); exists x, ev; exact H). congruence.
  - split; [auto|]. intros _ r x ev b [H _]. congruence.
Qed.

Lemma sevi_spec : forall v, service_evi v (sevi v).
Proof.
  intros v. unfold service_evi, own_evi, sevi. destruct (sv_evpn v) as [e|] eqn:E.
  - destruct (e_evi e) as [i|] eqn:I.
    + destruct (Z.eqb_spec i 0) as [Z|Z].
      * right. split; [reflexivity|]. intros j [e' [E' [I' N]]]. injection E' as E'. subst e'. congruence.
      * left. exists e. auto.
    + right. split; [reflexivity|]. intros j [e' [E' [I' N]]]. injection E' as E'. subst e'. congruence.
  - right. split; [reflexivity|]. intros j [e' [E' _]]. discriminate E'.
Qed.

Lemma service_evi_unique : forall v i j, service_evi v i -> service_evi v j -> i = j.
Proof.
  intros v i j [A|[A1 A2]] [B|[B1 B2]].
  - destruct A as [e [E [I _]]]. destruct B as [e' [E' [I' _]]]. rewrite E in E'. injection E' as E'. subst e'. congruence.
  - exfalso. exact (B2 _ A).
  - exfalso. exact (A2 _ B).
  - congruence.
Qed.

Lemma srt_spec : forall asn o v, service_rt asn o (sevi v) (srt asn o v).
Proof.
  intros asn o v. unfold service_rt, srt. destruct o as [l|]; [reflexivity|].
  exists (match asn with Some a => a | None => 0%Z end). split; [destruct asn; [left; reflexivity|right; split; reflexivity]|]. reflexivity.
Qed.

(* attributes of a VLAN before services are created *)
Definition own_evpn (v : svlan) : evd := match sv_evpn v with Some e => e | None => mk_evd None None None None end.

(* VLANs: exactly those in evpn.vlans change, each as its kind requires. *)
Theorem vlan_services_exact : forall asn valid names vl0 vr0 e0 n v,
  NoDup names -> (forall k, In k names -> In k (dkeys vl0)) -> dget n vl0 = Some v ->
  exists v', dget n (s_vlans (vlan_services asn valid names (mk_sst vl0 vr0 e0))) = Some v'
    /\ sv_id v' = sv_id v /\ sv_vrf v' = sv_vrf v
    /\ (~ In n names -> v' = v)
    /\ (In n names -> alone vr0 v -> exists i e', sv_evpn v' = Some e' /\ service_evi v i /\ e_evi e' = Some i
          /\ e_bundle e' = e_bundle (own_evpn v)
          /\ service_rt asn (e_imp (own_evpn v)) i (e_imp e') /\ service_rt asn (e_exp (own_evpn v)) i (e_exp e'))
    /\ (forall r x ev b, In n names -> bundled vr0 v r x ev b -> sv_evpn v <> None -> v' = v)
    /\ (forall r x ev b, In n names -> bundled vr0 v r x ev b -> sv_evpn v = None ->
          exists e', sv_evpn v' = Some e' /\ e_bundle e' = Some b /\ e_imp e' = None /\ e_exp e' = None
            /\ (forall i, b_evi ev = Some i -> e_evi e' = Some i) /\ (b_evi ev = None -> e_evi e' = r_id x)).
Proof.
  intros asn valid names vl0 vr0 e0 n v ND K G.
  destruct (services_inv asn valid vl0 vr0 names e0 ND K) as [I1 _]. specialize (I1 n). unfold newv in I1. rewrite G in I1.
  exists (if memS n names then final asn vr0 v else v). split; [exact I1|]. clear I1.
  assert (FI : sv_id (final asn vr0 v) = sv_id v /\ sv_vrf (final asn vr0 v) = sv_vrf v).
  { unfold final, based. destruct (sv_vrf v) as [r|] eqn:V; [|split; reflexivity]. destruct (bt0 vr0 r); [|split; reflexivity].
    destruct (sv_evpn v); split; first [reflexivity|exact V]. }
  split; [destruct (memS n names); [apply FI|reflexivity]|]. split; [destruct (memS n names); [apply FI|reflexivity]|].
  split; [intros N; apply memS_false in N; rewrite N; reflexivity|]. split; [|split].
  - intros I A. apply memS_true in I. rewrite I. apply alone_bt0 in A.
    assert (F : final asn vr0 v = based asn v) by (unfold final; destruct (sv_vrf v); [rewrite A|]; reflexivity).
    rewrite F. exists (sevi v). unfold based. cbn [sv_evpn]. eexists. split; [reflexivity|]. cbn [e_evi e_bundle e_imp e_exp].
    split; [apply sevi_spec|]. split; [reflexivity|]. unfold own_evpn. destruct (sv_evpn v); (split; [reflexivity|]); split; apply srt_spec.
  - intros r x ev b I B S. apply memS_true in I. rewrite I. pose proof (proj1 B) as V. unfold final. rewrite V.
    rewrite (proj2 (bt0_iff _ _ _ V b)) by (exists x, ev; exact B). destruct (sv_evpn v); [reflexivity|contradiction].
  - intros r x ev b I B S. apply memS_true in I. rewrite I. pose proof (proj1 B) as V. unfold final. rewrite V.
    rewrite (proj2 (bt0_iff _ _ _ V b)) by (exists x, ev; exact B). rewrite S. cbn [sv_evpn]. eexists. split; [reflexivity|].
    cbn [e_bundle e_imp e_exp e_evi]. split; [reflexivity|]. split; [reflexivity|]. split; [reflexivity|].
    destruct B as [_ [D [E _]]]. unfold bev0, evi0. rewrite D, E. split; [intros i Q; rewrite Q; reflexivity|intros Q; rewrite Q; reflexivity].
Qed.

Lemma joins_member : forall vl0 vr0 r n, joins vl0 vr0 r n = true <-> member vl0 vr0 r n.
Proof.
  intros vl0 vr0 r n. unfold joins. split.
  - intros H. destruct (dget n vl0) as [v|] eqn:G; [|discriminate H]. destruct (sv_vrf v) as [r'|] eqn:V; [|discriminate H].
    apply andb_true_iff in H. destruct H as [H S]. apply andb_true_iff in H. destruct H as [H B]. apply String.eqb_eq in H. subst r'.
    destruct (bt0 vr0 r) as [b|] eqn:Q; [|discriminate B]. apply (bt0_iff _ _ _ V) in Q. destruct Q as [x [ev Q]].
    apply (member_intro _ _ _ _ v x ev b G Q). destruct (sv_evpn v); [discriminate S|reflexivity].
  - intros [v x ev b G B S]. pose proof (proj1 B) as V. rewrite G, V, String.eqb_refl, S.
    rewrite (proj2 (bt0_iff _ _ _ V b)) by (exists x, ev; exact B). reflexivity.
Qed.

Lemma members_filter : forall vl0 vr0 r names, members vl0 vr0 r names (filter (joins vl0 vr0 r) names) (map (idof vl0) (filter (joins vl0 vr0 r) names)).
Proof.
  intros vl0 vr0 r. induction names as [|n names IH]; [constructor|]. cbn [filter]. destruct (joins vl0 vr0 r n) eqn:J.
  - apply joins_member in J. destruct J as [v x ev b G B S]. cbn [map]. unfold idof at 1. rewrite G. apply members_in; [exact G| |exact IH].
    exact (member_intro _ _ _ _ v x ev b G B S).
  - apply members_out; [|exact IH]. intros Q. apply joins_member in Q. congruence.
Qed.

(* VRFs: those with members list all their members in the order of evpn.vlans, with their IDs; others do not change. *)
Theorem vlan_bundles_exact : forall asn valid names vl0 vr0 e0 r x,
  NoDup names -> (forall k, In k names -> In k (dkeys vl0)) -> dget r vr0 = Some x ->
  exists x' ms ids, dget r (s_vrfs (vlan_services asn valid names (mk_sst vl0 vr0 e0))) = Some x'
    /\ members vl0 vr0 r names ms ids
    /\ (ms = [] -> x' = x)
    /\ (ms <> [] -> exists ev ev', r_evpn x = Some ev /\ r_evpn x' = Some ev' /\ r_id x' = r_id x /\ b_type ev' = b_type ev
          /\ (forall i, b_evi ev = Some i -> b_evi ev' = Some i) /\ (b_evi ev = None -> b_evi ev' = r_id x)
          /\ (exists old, (b_vlans ev = Some old \/ (b_vlans ev = None /\ old = [])) /\ b_vlans ev' = Some (old ++ ms))
          /\ (exists old, (b_ids ev = Some old \/ (b_ids ev = None /\ old = [])) /\ b_ids ev' = Some (old ++ ids))).
Proof.
  intros asn valid names vl0 vr0 e0 r x ND K D.
  destruct (services_inv asn valid vl0 vr0 names e0 ND K) as [_ [I2 _]]. specialize (I2 r). unfold newr in I2. rewrite D in I2.
  pose proof (members_filter vl0 vr0 r names) as MF. pose proof (fun m => proj1 (filter_In (joins vl0 vr0 r) m names)) as FI. set (ms := filter (joins vl0 vr0 r) names) in *. clearbody ms.
  exists (upd vl0 x ms), ms, (map (idof vl0) ms). split; [exact I2|]. split; [exact MF|]. split; [intros Q; rewrite Q; reflexivity|].
  intros NE. destruct ms as [|m r']; [contradiction|].
  destruct (FI m (or_introl eq_refl)) as [_ J]. apply joins_member in J. destruct J as [v y ev b G [V [D' [E _]]] S].
  rewrite D in D'. injection D' as D'. subst y. unfold upd. rewrite E. exists ev. eexists. split; [reflexivity|]. split; [reflexivity|]. cbn [r_id b_type b_evi b_vlans b_ids].
  split; [reflexivity|]. split; [reflexivity|]. unfold evi0. split; [intros i Q; rewrite Q; reflexivity|]. split; [intros Q; rewrite Q; reflexivity|]. split.
  - exists (match b_vlans ev with Some l => l | None => [] end). split; [destruct (b_vlans ev); [left|right; split]; reflexivity|reflexivity].
  - exists (match b_ids ev with Some l => l | None => [] end). split; [destruct (b_ids ev); [left|right; split]; reflexivity|reflexivity].
Qed.

(* VRFs that are not global: created, empty, exactly for the VLANs in evpn.vlans that refer to them. *)
Theorem vlan_service_new_vrfs : forall asn valid names vl0 vr0 e0 r x,
  NoDup names -> (forall k, In k names -> In k (dkeys vl0)) -> dget r vr0 = None ->
  (dget r (s_vrfs (vlan_services asn valid names (mk_sst vl0 vr0 e0))) = Some x <->
   x = mk_svrf None None /\ exists n v, In n names /\ dget n vl0 = Some v /\ sv_vrf v = Some r).
Proof.
  intros asn valid names vl0 vr0 e0 r x ND K D.
  destruct (services_inv asn valid vl0 vr0 names e0 ND K) as [_ [I2 _]]. rewrite I2. unfold newr. rewrite D.
  destruct (existsb (refs vl0 r) names) eqn:X.
  - apply existsb_exists in X. destruct X as [n [I R]]. split.
    + intros H. injection H as H. split; [congruence|]. unfold refs in R. destruct (dget n vl0) as [v|] eqn:G; [|discriminate R].
      destruct (sv_vrf v) as [r'|] eqn:V; [|discriminate R]. apply String.eqb_eq in R. subst r'. exists n, v. auto.
    + intros [H _]. congruence.
  - split; [intros H; discriminate H|]. intros [_ [n [v [I [G V]]]]]. exfalso.
    assert (Q : existsb (refs vl0 r) names = true). { apply existsb_exists. exists n. split; [exact I|]. unfold refs. rewrite G, V. apply String.eqb_refl. }
    congruence.
Qed.

(* Errors. *)
Theorem vlan_service_errors_exact : forall asn valid names vl0 vr0 e,
  NoDup names -> (forall k, In k names -> In k (dkeys vl0)) ->
  (In e (s_errs (vlan_services asn valid names (mk_sst vl0 vr0 []))) <->
   exists n v, In n names /\ dget n vl0 = Some v /\
   ((e = EAsn /\ asn = None /\ alone vr0 v) \/
    (e = EEvi n /\ alone vr0 v /\ exists i, service_evi v i /\ ~ (1 <= i <= 65535)%Z) \/
    (exists r x ev b, bundled vr0 v r x ev b /\ ((e = EType r /\ ~ In b valid) \/ (e = EBundleEvpn n /\ sv_evpn v <> None))))).
Proof.
  intros asn valid names vl0 vr0 e ND K.
  destruct (services_inv asn valid vl0 vr0 names [] ND K) as [_ [_ I3]]. rewrite I3. cbn [app]. clear I3.
  rewrite in_flat_map.
  assert (BE : forall n v, In e (based_errs asn n v) <->
            (e = EAsn /\ asn = None) \/ (e = EEvi n /\ exists i, service_evi v i /\ ~ (1 <= i <= 65535)%Z)).
  { intros n v. unfold based_errs. rewrite in_app_iff.
    assert (R : negb ((1 <=? sevi v)%Z && (sevi v <=? 65535)%Z) = true <-> exists i, service_evi v i /\ ~ (1 <= i <= 65535)%Z).
    { rewrite negb_true_iff, andb_false_iff, !Z.leb_gt. split.
      - intros Q. exists (sevi v). split; [apply sevi_spec|lia].
      - intros [i [S Q]]. rewrite (service_evi_unique _ _ _ (sevi_spec v) S). lia. }
    rewrite <- R. clear R. destruct (negb ((1 <=? sevi v)%Z && (sevi v <=? 65535)%Z)); destruct asn; cbn [In]; split; intros Q;
      repeat match goal with H : _ \/ _ |- _ => destruct H | H : _ /\ _ |- _ => destruct H | H : False |- _ => destruct H end; subst; try discriminate; auto. }
  split.
  - intros [n [I H]]. unfold errs in H. destruct (dget n vl0) as [v|] eqn:G; [|destruct H]. exists n, v. split; [exact I|]. split; [exact G|].
    destruct (sv_vrf v) as [r|] eqn:V.
    + destruct (bt0 vr0 r) as [b|] eqn:B.
      * right. right. apply (bt0_iff _ _ _ V) in B. destruct B as [x [ev B]]. exists r, x, ev, b. split; [exact B|].
        apply in_app_or in H. destruct H as [H|H].
        -- left. destruct (memS b valid) eqn:M; [destruct H|]. apply memS_false in M. destruct H as [H|[]]. auto.
        -- right. destruct (sv_evpn v) as [ee|]; [|destruct H]. destruct H as [H|[]]. split; [auto|discriminate].
      * assert (A : alone vr0 v) by (apply alone_bt0; rewrite V; exact B). apply BE in H. destruct H as [[H1 H2]|[H1 H2]]; auto.
    + assert (A : alone vr0 v) by (apply alone_bt0; rewrite V; trivial). apply BE in H. destruct H as [[H1 H2]|[H1 H2]]; auto.
  - intros [n [v [I [G H]]]]. exists n. split; [exact I|]. unfold errs. rewrite G.
    assert (AL : alone vr0 v -> In e (based_errs asn n v) -> In e match sv_vrf v with
       | Some r => match bt0 vr0 r with
                   | Some b => (if negb (memS b valid) then [EType r] else []) ++ match sv_evpn v with Some _ => [EBundleEvpn n] | None => [] end
                   | None => based_errs asn n v end
       | None => based_errs asn n v end).
    { intros A Q. apply alone_bt0 in A. destruct (sv_vrf v); [rewrite A|]; exact Q. }
    destruct H as [[H1 [H2 A]]|[[H1 [A H2]]|[r [x [ev [b [B H]]]]]]].
    + apply AL; [exact A|]. apply BE. left. auto.
    + apply AL; [exact A|]. apply BE. right. auto.
    + pose proof (proj1 B) as V. rewrite V, (proj2 (bt0_iff _ _ _ V b)) by (exists x, ev; exact B). apply in_or_app.
      destruct H as [[H1 H2]|[H1 H2]]; [left|right].
      * apply memS_false in H2. rewrite H2. left. auto.
      * destruct (sv_evpn v); [left; auto|contradiction].
Qed.

(* A VLAN of a bundle-type VRF that exists only on nodes: no error, a service of its own, and a new empty global VRF. *)
Theorem bundle_needs_global_vrf_refuted : exists asn valid vl0 vr0 names n v,
  In n names /\ dget n vl0 = Some v /\ sv_vrf v = Some "blue" /\ dget "blue" vr0 = None
  /\ let t := vlan_services asn valid names (mk_sst vl0 vr0 []) in
     s_errs t = [] /\ dget "blue" (s_vrfs t) = Some (mk_svrf None None)
     /\ exists v' e', dget n (s_vlans t) = Some v' /\ sv_evpn v' = Some e' /\ e_bundle e' = None /\ e_imp e' = Some ["65000:10"].
Proof.
  exists (Some 65000%Z), ["vlan_aware"], [("v", mk_svlan 10 (Some "blue") None)], [("red", mk_svrf (Some 1%Z) None)], ["v"], "v", (mk_svlan 10 (Some "blue") None).
  split; [left; reflexivity|]. split; [reflexivity|]. split; [reflexivity|]. split; [reflexivity|]. cbv zeta. split; [vm_compute; reflexivity|]. split; [vm_compute; reflexivity|].
  eexists. eexists. split; [vm_compute; reflexivity|]. split; [reflexivity|]. split; reflexivity.
Qed.

Example vlan_services_case :
  vlan_services (Some 65000%Z) ["vlan_aware"] ["a"; "b"; "c"; "d"; "e"]
    (mk_sst [("a", mk_svlan 10 (Some "red") None); ("b", mk_svlan 11 None (Some (mk_evd (Some 0%Z) None (Some ["1:1"]) None)));
             ("c", mk_svlan 12 (Some "red") None); ("d", mk_svlan 13 (Some "red") (Some (mk_evd (Some 7%Z) None None None))); ("e", mk_svlan 70000 (Some "blue") None);
             ("f", mk_svlan 15 None None)]
            [("red", mk_svrf (Some 3%Z) (Some (mk_red (Some "vlan_aware") None None None))); ("blue", mk_svrf (Some 4%Z) None)] []) =
  mk_sst [("a", mk_svlan 10 (Some "red") (Some (mk_evd (Some 3%Z) (Some "vlan_aware") None None)));
          ("b", mk_svlan 11 None (Some (mk_evd (Some 11%Z) None (Some ["1:1"]) (Some ["65000:11"]))));
          ("c", mk_svlan 12 (Some "red") (Some (mk_evd (Some 3%Z) (Some "vlan_aware") None None)));
          ("d", mk_svlan 13 (Some "red") (Some (mk_evd (Some 7%Z) None None None)));
          ("e", mk_svlan 70000 (Some "blue") (Some (mk_evd (Some 70000%Z) None (Some ["65000:70000"]) (Some ["65000:70000"]))));
          ("f", mk_svlan 15 None None)]
         [("red", mk_svrf (Some 3%Z) (Some (mk_red (Some "vlan_aware") (Some 3%Z) (Some ["a"; "c"]) (Some [10; 12]%Z)))); ("blue", mk_svrf (Some 4%Z) None)]
         [EBundleEvpn "d"; EEvi "e"].
Proof. vm_compute. reflexivity. Qed.

(* ------------------------------------------------------------------ *)
(* C214: EVPN data of VRFs and nodes                                    *)

Theorem vrf_evi_exact : forall vrfs,
  Forall2 (fun kv kv' : string * svrf => fst kv' = fst kv /\ r_id (snd kv') = r_id (snd kv)
    /\ (r_evpn (snd kv) = None -> r_evpn (snd kv') = None)
    /\ forall ev, r_evpn (snd kv) = Some ev -> exists ev', r_evpn (snd kv') = Some ev'
       /\ b_type ev' = b_type ev /\ b_vlans ev' = b_vlans ev /\ b_ids ev' = b_ids ev
       /\ (forall i, b_evi ev = Some i -> b_evi ev' = Some i) /\ (b_evi ev = None -> b_evi ev' = r_id (snd kv)))
    vrfs (vrf_irb_setup vrfs).
Proof.
  induction vrfs as [|[k x] r IH]; [constructor|]. unfold vrf_irb_setup. cbn [map]. constructor; [|exact IH]. cbn [fst snd].
  destruct (r_evpn x) as [ev|] eqn:E.
  - split; [reflexivity|]. split; [reflexivity|]. split; [intros Q; discriminate Q|]. intros ev0 Q. injection Q as Q. subst ev0. cbn [r_evpn].
    eexists. split; [reflexivity|]. cbn [b_type b_vlans b_ids b_evi]. split; [reflexivity|]. split; [reflexivity|]. split; [reflexivity|].
    split; [intros i Q; rewrite Q; reflexivity|intros Q; rewrite Q; reflexivity].
  - split; [reflexivity|]. split; [reflexivity|]. split; [intros _; exact E|]. intros ev Q. discriminate Q.
Qed.

Theorem node_vrf_attributes_exact : forall vrfs d n, vrfs = Some d -> NoDup (dkeys d) ->
  (In n (node_vrf_attributes vrfs) <-> exists x, dget n d = Some (VDict x) /\ In "evpn" (dkeys x)).
Proof.
  intros vrfs d n Q ND. subst vrfs. unfold node_vrf_attributes. rewrite in_flat_map. split.
  - intros [[k v] [I H]]. cbn [snd fst] in H. destruct v as [| | | | |x]; try destruct H. destruct (dmem "evpn" x) eqn:M; [|destruct H].
    destruct H as [H|[]]. subst k. exists x. split; [apply dget_NoDup; assumption|]. apply dmem_true. exact M.
  - intros [x [G I]]. exists (n, VDict x). split; [apply dget_In; exact G|]. cbn [snd fst]. apply dmem_true in I. rewrite I. left. reflexivity.
Qed.

Theorem node_evpn_copied_exact : forall g ne k,
  (forall v, dget k ne = Some v -> dget k (copy_global_evpn_lists g ne) = Some v)
  /\ (dget k ne = None -> (k = "vlans" \/ k = "vrfs" \/ k = "transport") -> dget k (copy_global_evpn_lists g ne) = dget k g)
  /\ (dget k ne = None -> k <> "vlans" -> k <> "vrfs" -> k <> "transport" -> dget k (copy_global_evpn_lists g ne) = None).
Proof.
  intros g ne k.
  assert (G : forall l ne, dget k (fold_left (fun ne k => match dget k g with Some v => if dmem k ne then ne else dset k v ne | None => ne end) l ne)
              = match dget k ne with Some v => Some v | None => if memS k l then dget k g else None end).
  { induction l as [|x l IH]; intros ne0; cbn [fold_left]; [unfold memS; cbn [existsb]; destruct (dget k ne0); reflexivity|].
    rewrite IH. clear IH.
    assert (S : dget k (match dget x g with Some v => if dmem x ne0 then ne0 else dset x v ne0 | None => ne0 end)
                = match dget k ne0 with Some v => Some v | None => if String.eqb k x then dget k g else None end).
    { destruct (String.eqb_spec k x) as [E|E].
      - subst x. destruct (dget k g) as [v|] eqn:D; [|destruct (dget k ne0); reflexivity].
        unfold dmem. destruct (dget k ne0) as [w|] eqn:W; [exact W|]. apply dget_dset_same.
      - destruct (dget x g) as [v|]; [|destruct (dget k ne0); reflexivity]. destruct (dmem x ne0); [destruct (dget k ne0); reflexivity|].
        rewrite dget_dset_other by exact E. destruct (dget k ne0); reflexivity. }
    rewrite S. unfold memS. cbn [existsb]. destruct (dget k ne0); [reflexivity|]. destruct (String.eqb k x); cbn [orb]; [|reflexivity].
    destruct (dget k g); [reflexivity|]. destruct (existsb (String.eqb k) l); reflexivity. }
  unfold copy_global_evpn_lists. rewrite G. split; [intros v Q; rewrite Q; reflexivity|]. split.
  - intros Q H. rewrite Q. assert (M : memS k ["vlans"; "vrfs"; "transport"] = true).
    { apply memS_true. destruct H as [H|[H|H]]; subst k; cbn [In]; auto. }
    rewrite M. reflexivity.
  - intros Q H1 H2 H3. rewrite Q. assert (M : memS k ["vlans"; "vrfs"; "transport"] = false).
    { apply memS_false. intros [H|[H|[H|[]]]]; congruence. }
    rewrite M. reflexivity.
Qed.

(* order of the objects of the node *)
Inductive subseq {A} : list A -> list A -> Prop :=
| subseq_nil : subseq [] []
| subseq_keep : forall x l l', subseq l l' -> subseq (x :: l) (x :: l')
| subseq_skip : forall x l l', subseq l l' -> subseq l (x :: l').

Theorem node_evpn_trimmed_exact : forall keys l, trim_list keys None = None /\
  exists l', trim_list keys (Some l) = Some l' /\ (forall n, In n l' <-> In n keys /\ In n l) /\ subseq l' keys
    /\ (NoDup keys -> NoDup l').
Proof.
  intros keys l. split; [reflexivity|]. exists (filter (fun k => memS k l) keys). split; [reflexivity|]. split; [|split].
  - intros n. rewrite filter_In, memS_true. reflexivity.
  - induction keys as [|k r IH]; [constructor|]. cbn [filter]. destruct (memS k l); constructor; exact IH.
  - intros ND. apply NoDup_filter. exact ND.
Qed.

Example node_evpn_case :
  copy_global_evpn_lists [("vlans", VList [VStr "a"]); ("session", VNull); ("transport", VStr "mpls")] [("vrfs", VList []); ("transport", VStr "vxlan")]
    = [("vrfs", VList []); ("transport", VStr "vxlan"); ("vlans", VList [VStr "a"])]
  /\ trim_list ["c"; "a"; "b"] (Some ["a"; "c"; "x"]) = Some ["c"; "a"]
  /\ node_vrf_attributes (Some [("red", VDict [("evpn", VNull)]); ("blue", VDict []); ("green", VNull)]) = ["red"].
Proof. repeat split. Qed.

(* ------------------------------------------------------------------ *)
(* C215: IRB modes and bundle types of devices                          *)

Definition symmetric (transport : option string) (x : nvrf) : Prop := nv_transit x = true \/ transport = Some "mpls".
Definition over_vxlan (transport : option string) : Prop := transport = None \/ transport = Some "vxlan".

Theorem irb_errors_exact : forall transport irb asym vlans node_vlans vrfs e, NoDup (dkeys vrfs) ->
  (In e (check_node_vrf_irb transport irb asym vlans node_vlans vrfs) <->
   exists r x, dget r vrfs = Some x /\ nv_af x = true /\
     ((e = ESym r /\ symmetric transport x /\ over_vxlan transport /\ irb = false) \/
      (e = EAsym r /\ ~ symmetric transport x /\ asym = false) \/
      (exists v, e = EIrbVlan r v /\ ~ symmetric transport x /\ asym = true /\ In v (check_asym_vlan r vlans node_vlans)))).
Proof.
  intros transport irb asym vlans node_vlans vrfs e ND. unfold check_node_vrf_irb.
  set (tr := match transport with Some s => s | None => "vxlan" end).
  assert (SY : forall x, nv_transit x || String.eqb tr "mpls" = true <-> symmetric transport x).
  { intros x. unfold symmetric, tr. rewrite orb_true_iff, String.eqb_eq. destruct transport as [s|]; split; intros [Q|Q]; auto; try discriminate Q; right; congruence. }
  assert (OV : String.eqb tr "vxlan" = true <-> over_vxlan transport).
  { unfold over_vxlan, tr. rewrite String.eqb_eq. destruct transport as [s|]; split; intros Q; auto; try (destruct Q as [Q|Q]; congruence). right. congruence. }
  rewrite in_flat_map. split.
  - intros [[r x] [I H]]. cbn [fst snd] in H. exists r, x. split; [apply dget_NoDup; assumption|].
    destruct (nv_af x); cbn [negb] in H; [|destruct H]. split; [reflexivity|].
    destruct (nv_transit x || String.eqb tr "mpls") eqn:S.
    + apply SY in S. destruct irb; cbn [negb andb] in H; [destruct H|]. destruct (String.eqb tr "vxlan") eqn:O; [|destruct H].
      destruct H as [H|[]]. left. split; [auto|]. split; [exact S|]. split; [apply OV; reflexivity|reflexivity].
    + assert (NS : ~ symmetric transport x) by (intros Q; apply SY in Q; congruence). right. destruct asym; cbn [negb] in H.
      * right. apply in_map_iff in H. destruct H as [v [E H]]. exists v. auto.
      * left. destruct H as [H|[]]. auto.
  - intros [r [x [G [A H]]]]. exists (r, x). split; [apply dget_In; exact G|]. cbn [fst snd]. rewrite A. cbn [negb].
    destruct H as [[E [S [O Q]]]|[[E [S Q]]|[v [E [S [Q I]]]]]].
    + apply SY in S. apply OV in O. rewrite S, O, Q. cbn [negb andb]. left. auto.
    + destruct (nv_transit x || String.eqb tr "mpls") eqn:T; [exfalso; apply S; apply SY; exact T|]. rewrite Q. cbn [negb]. left. auto.
    + destruct (nv_transit x || String.eqb tr "mpls") eqn:T; [exfalso; apply S; apply SY; exact T|]. rewrite Q. cbn [negb]. rewrite E. apply in_map. exact I.
Qed.

Theorem bundle_errors_exact : forall supported vrfs r, NoDup (dkeys vrfs) ->
  (In r (check_node_vrf_bundle supported vrfs) <->
   exists x b, dget r vrfs = Some x /\ nv_bundle x = Some b /\ b <> "" /\ ~ In b supported).
Proof.
  intros supported vrfs r ND. unfold check_node_vrf_bundle. rewrite in_map_iff. split.
  - intros [[k x] [E H]]. cbn [fst] in E. subst k. apply filter_In in H. destruct H as [I H]. cbn [snd] in H.
    destruct (nv_bundle x) as [b|] eqn:B; [|discriminate H]. apply andb_true_iff in H. destruct H as [H1 H2].
    exists x, b. split; [apply dget_NoDup; assumption|]. split; [exact B|]. split.
    + apply negb_true_iff in H1. apply String.eqb_neq. exact H1.
    + apply negb_true_iff in H2. apply memS_false. exact H2.
  - intros [x [b [G [B [N M]]]]]. exists (r, x). split; [reflexivity|]. apply filter_In. split; [apply dget_In; exact G|]. cbn [snd]. rewrite B.
    apply String.eqb_neq in N. apply memS_false in M. rewrite N, M. reflexivity.
Qed.

Example irb_case :
  check_node_vrf_irb None false true [("v1", mk_avlan (Some "blue") true)] [] [("red", mk_nvrf true true None); ("blue", mk_nvrf true false None); ("green", mk_nvrf false true None)]
    = [ESym "red"; EIrbVlan "blue" "v1"]
  /\ check_node_vrf_irb (Some "mpls") false false [] [] [("red", mk_nvrf true false None)] = []
  /\ check_node_vrf_bundle ["vlan_aware"] [("red", mk_nvrf true true (Some "vlan_aware")); ("blue", mk_nvrf true true (Some "vlan"))] = ["blue"].
Proof. repeat split. Qed.

Print Assumptions evpn_sessions_exact.
Print Assumptions evpn_sessions_crash.
Print Assumptions evpn_asn_exact.
Print Assumptions vlan_services_exact.
Print Assumptions vlan_bundles_exact.
Print Assumptions vlan_service_new_vrfs.
Print Assumptions vlan_service_errors_exact.
Print Assumptions bundle_needs_global_vrf_refuted.
Print Assumptions vrf_evi_exact.
Print Assumptions node_vrf_attributes_exact.
Print Assumptions node_evpn_copied_exact.
Print Assumptions node_evpn_trimmed_exact.
Print Assumptions irb_errors_exact.
Print Assumptions bundle_errors_exact.
