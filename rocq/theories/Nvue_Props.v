(* Properties of device quirks of Cumulus NVUE and cEOS. *)
From Coq Require Import String Ascii ZArith Lia Bool List.
From Verif Require Import Base Box_Model Dev_Model Ndev_Model Mod_Model Dhcp_Model Nvue_Model Mod_Props Asg_Props Vchk_Props Gdat_Props.
Import ListNotations.
Local Open Scope string_scope.
Local Open Scope list_scope.

(* ------------------------------------------------------------------ *)
(* C238: passive OSPF interfaces in VRFs                                *)

Definition passive (i : dict val) : Prop := lookup ["ospf"; "passive"] (VDict i) = Some (VBool true).

Lemma is_passive_spec : forall i, is_passive i = true <-> passive i.
Proof.
  intros i. unfold is_passive, passive, rdd, rd. cbn [lookup].
  destruct (dget "ospf" i) as [o|]; [|split; intros H; discriminate H].
  destruct o as [|b|z|s|l|d]; try (split; intros H; discriminate H).
  cbn [entries]. destruct (dget "passive" d) as [[|[]|z|s|l|e]|]; split; intros H; congruence || discriminate H.
Qed.

(* the same interface except that it is not passive *)
Definition turned_off (i j : dict val) : Prop :=
  (forall k, k <> "ospf" -> dget k j = dget k i)
  /\ lookup ["ospf"; "passive"] (VDict j) = Some (VBool false)
  /\ (forall k, k <> "passive" -> lookup ["ospf"; k] (VDict j) = lookup ["ospf"; k] (VDict i)).

Lemma unpassive_spec : forall i, (passive i -> turned_off i (unpassive i)) /\ (~ passive i -> unpassive i = i).
Proof.
  intros i. unfold unpassive. pose proof (is_passive_spec i) as P. destruct (is_passive i).
  - split; [|intros N; exfalso; apply N, P; reflexivity]. intros Q. unfold passive in Q. cbn [lookup] in Q. unfold turned_off. cbn [lookup].
    rewrite dget_dset_same. unfold rdd, rd. destruct (dget "ospf" i) as [[|b|z|s|l|d]|]; try discriminate Q. cbn [entries].
    split; [intros k K; apply dget_dset_other; congruence|]. split; [rewrite dget_dset_same; reflexivity|]. intros k K. rewrite dget_dset_other by congruence. reflexivity.
  - split; [|intros _; reflexivity]. intros Q. apply P in Q. discriminate Q.
Qed.

(* afterwards no OSPF interface in a VRF is passive; only passive interfaces change, and these are in the warning *)
Theorem nvue_passive_exact : forall vrfs,
  let r := passive_in_vrf vrfs in
  Forall2 (fun p q => fst q = fst p /\ Forall2 (fun i j => (passive i -> turned_off i j) /\ (~ passive i -> j = i)) (snd p) (snd q)) vrfs (fst r)
  /\ (forall p i, In p (fst r) -> In i (snd p) -> ~ passive i)
  /\ (forall x, In x (snd r) <-> exists p i, In p vrfs /\ In i (snd p) /\ passive i /\ rd "ifname" i = x)
  /\ (snd r = [] <-> forall p i, In p vrfs -> In i (snd p) -> ~ passive i)
  /\ passive_in_vrf (fst r) = (fst r, []).
Proof.
  intros vrfs. cbv zeta. unfold passive_in_vrf. cbn [fst snd].
  assert (OFF : forall i, ~ passive (unpassive i)).
  { intros i. destruct (unpassive_spec i) as [A B]. pose proof (is_passive_spec i) as P. destruct (is_passive i).
    - destruct (A (proj1 P eq_refl)) as [_ [Q _]]. unfold passive. rewrite Q. discriminate.
    - assert (N : ~ passive i) by (intros Q; apply P in Q; discriminate Q). rewrite (B N). exact N. }
  assert (RES : forall p i, In p (map (fun p => (fst p, map unpassive (snd p))) vrfs) -> In i (snd p) -> ~ passive i).
  { intros p i H I. apply in_map_iff in H. destruct H as [q [E H]]. subst p. cbn [snd] in I. apply in_map_iff in I. destruct I as [j [E _]]. subst i. apply OFF. }
  assert (REP : forall l : dict (list (dict val)), forall x, In x (flat_map (fun p => map (rd "ifname") (filter is_passive (snd p))) l) <-> exists p i, In p l /\ In i (snd p) /\ passive i /\ rd "ifname" i = x).
  { intros l x. rewrite in_flat_map. split.
    - intros [p [P H]]. apply in_map_iff in H. destruct H as [i [E I]]. apply filter_In in I. destruct I as [I Q]. exists p, i. split; [exact P|]. split; [exact I|]. split; [apply is_passive_spec; exact Q|exact E].
    - intros [p [i [P [I [Q E]]]]]. exists p. split; [exact P|]. apply in_map_iff. exists i. split; [exact E|]. apply filter_In. split; [exact I|apply is_passive_spec; exact Q]. }
  assert (NONE : forall l : dict (list (dict val)), flat_map (fun p => map (rd "ifname") (filter is_passive (snd p))) l = [] <-> forall p i, In p l -> In i (snd p) -> ~ passive i).
  { intros l. split.
    - intros E p i P I Q. assert (X : In (rd "ifname" i) []). { rewrite <- E. apply REP. exists p, i. auto. } destruct X.
    - intros H. destruct (flat_map _ l) as [|x r] eqn:E; [reflexivity|]. exfalso. assert (X : In x (x :: r)) by (left; reflexivity). rewrite <- E in X. apply REP in X. destruct X as [p [i [P [I [Q _]]]]]. exact (H p i P I Q). }
  split; [|split; [exact RES|split; [apply REP|split; [apply NONE|]]]].
  - clear. induction vrfs as [|[n l] r IH]; cbn [map]; constructor; [|exact IH]. cbn [fst snd]. split; [reflexivity|].
    induction l as [|i l IHl]; cbn [map]; constructor; [|exact IHl]. apply unpassive_spec.
  - f_equal; [|apply NONE; exact RES].
    rewrite map_map. apply map_ext. intros [n l]. cbn [fst snd]. f_equal. rewrite map_map. apply map_ext. intros i. apply unpassive_spec, OFF.
Qed.

Example nvue_passive_case :
  let i := [("ifname", VStr "swp1"); ("ospf", VDict [("area", VInt 0); ("passive", VBool true)])] in
  passive i /\ passive_in_vrf [("red", [i])] = ([("red", [[("ifname", VStr "swp1"); ("ospf", VDict [("area", VInt 0); ("passive", VBool false)])]])], [VStr "swp1"]).
Proof. split; reflexivity. Qed.

(* ------------------------------------------------------------------ *)
(* C239: OSPF on secondary loopbacks                                    *)

Definition ospf_loopback (i : dict val) : Prop := dget "type" i = Some (VStr "loopback") /\ exists o, dget "ospf" i = Some o.

Section LoopbackProps.
Variable same : val -> val -> bool.
Variable loop : dict val.

(* OSPF of the interface can be merged with OSPF of the primary loopback *)
Definition compatible (i : dict val) : Prop :=
  exists o p, dget "ospf" i = Some o /\ dget "ospf" loop = Some p /\ dget "vrf" i = None
    /\ (same o p = true \/ same o (merge p (VDict [("passive", VBool false)])) = true).

Lemma merge_loopback_spec : forall i,
  (~ ospf_loopback i /\ merge_loopback same loop i = (i, []))
  \/ (ospf_loopback i /\ compatible i /\ merge_loopback same loop i = (dpop "ospf" i, [LMerged (rd "ifname" i)]))
  \/ (ospf_loopback i /\ ~ compatible i /\ merge_loopback same loop i = (i, [LDiffers (rd "ifname" i)])).
Proof.
  intros i. unfold merge_loopback, dmem.
  assert (T : forall x, match dget "type" i with Some (VStr s) => String.eqb s "loopback" | _ => false end = x -> if x then dget "type" i = Some (VStr "loopback") else dget "type" i <> Some (VStr "loopback")).
  { intros x E. destruct (dget "type" i) as [[|b|z|s|l|d]|]; subst x; try discriminate. destruct (String.eqb_spec s "loopback") as [Q|Q]; [subst s; reflexivity|congruence]. }
  specialize (T _ eq_refl). destruct (match dget "type" i with Some (VStr s) => String.eqb s "loopback" | _ => false end).
  2:{ left. split; [intros [Q _]; contradiction|reflexivity]. }
  destruct (dget "ospf" i) as [o|] eqn:O; cbn [negb orb].
  2:{ left. split; [intros [_ [o Q]]; congruence|reflexivity]. }
  assert (OL : ospf_loopback i) by (split; [exact T|exists o; exact O]). right.
  assert (RO : rd "ospf" i = o) by (unfold rd; rewrite O; reflexivity). rewrite RO.
  destruct (dget "ospf" loop) as [p|] eqn:P; cbn [andb].
  2:{ right. split; [exact OL|]. split; [|reflexivity]. intros [a [b [_ [Q _]]]]. congruence. }
  destruct (dget "vrf" i) as [w|] eqn:W; cbn [negb andb].
  { right. split; [exact OL|]. split; [|reflexivity]. intros [a [b [_ [_ [Q _]]]]]. congruence. }
  unfold mergeable. assert (RP : rd "ospf" loop = p) by (unfold rd; rewrite P; reflexivity). rewrite RP.
  destruct (same o p || same o (merge p (VDict [("passive", VBool false)]))) eqn:S.
  - left. split; [exact OL|]. split; [|reflexivity]. exists o, p. apply orb_true_iff in S. auto.
  - right. split; [exact OL|]. split; [|reflexivity]. intros [a [b [A [B [_ Q]]]]]. assert (a = o) by congruence. assert (b = p) by congruence. subst a b. apply orb_false_iff in S. destruct S, Q; congruence.
Qed.

(* OSPF is removed exactly from the loopbacks that can be merged, with a warning; every other loopback with OSPF is in the error; nothing else changes *)
Theorem nvue_loopbacks_exact : forall ifs,
  let r := merge_ospf_loopbacks same loop ifs in
  Forall2 (fun i j => (ospf_loopback i /\ compatible i -> dget "ospf" j = None /\ forall k, k <> "ospf" -> dget k j = dget k i)
                      /\ (~ (ospf_loopback i /\ compatible i) -> j = i)) ifs (fst r)
  /\ (forall x, In (LMerged x) (snd r) <-> exists i, In i ifs /\ ospf_loopback i /\ compatible i /\ rd "ifname" i = x)
  /\ (forall x, In (LDiffers x) (snd r) <-> exists i, In i ifs /\ ospf_loopback i /\ ~ compatible i /\ rd "ifname" i = x).
Proof.
  intros ifs. cbv zeta. unfold merge_ospf_loopbacks. cbn [fst snd]. split; [|split].
  - induction ifs as [|i r IH]; cbn [map]; constructor; [|exact IH].
    destruct (merge_loopback_spec i) as [[A E]|[[A [B E]]|[A [B E]]]]; rewrite E; cbn [fst].
    + split; [intros [Q _]; contradiction|reflexivity].
    + split; [|intros Q; exfalso; apply Q; auto]. intros _. split; [apply dget_dpop_same|]. intros k K. apply dget_dpop_other. congruence.
    + split; [intros [_ Q]; contradiction|reflexivity].
  - intros x. rewrite in_flat_map. split.
    + intros [i [I H]]. exists i. split; [exact I|]. destruct (merge_loopback_spec i) as [[A E]|[[A [B E]]|[A [B E]]]]; rewrite E in H; cbn [snd] in H.
      * destruct H.
      * destruct H as [H|[]]. injection H as H. auto.
      * destruct H as [H|[]]. discriminate H.
    + intros [i [I [A [B R]]]]. exists i. split; [exact I|]. destruct (merge_loopback_spec i) as [[A' E]|[[A' [B' E]]|[A' [B' E]]]]; [contradiction| |contradiction]. rewrite E, R. left. reflexivity.
  - intros x. rewrite in_flat_map. split.
    + intros [i [I H]]. exists i. split; [exact I|]. destruct (merge_loopback_spec i) as [[A E]|[[A [B E]]|[A [B E]]]]; rewrite E in H; cbn [snd] in H.
      * destruct H.
      * destruct H as [H|[]]. discriminate H.
      * destruct H as [H|[]]. injection H as H. auto.
    + intros [i [I [A [B R]]]]. exists i. split; [exact I|]. destruct (merge_loopback_spec i) as [[A' E]|[[A' [B' E]]|[A' [B' E]]]]; [contradiction|contradiction|]. rewrite E, R. left. reflexivity.
Qed.
End LoopbackProps.

(* a coarse equality is enough for this case: the number of attributes *)
Example nvue_loopbacks_case :
  let same := fun a b => match a, b with VDict x, VDict y => Nat.eqb (length x) (length y) | _, _ => false end in
  let loop := [("ospf", VDict [("area", VInt 0)])] in
  let i := [("ifname", VStr "lo1"); ("type", VStr "loopback"); ("ospf", VDict [("area", VInt 0); ("passive", VBool false)])] in
  ospf_loopback i /\ compatible same loop i
  /\ merge_ospf_loopbacks same loop [i; dset "vrf" (VStr "red") i] = ([dpop "ospf" i; dset "vrf" (VStr "red") i], [LMerged (VStr "lo1"); LDiffers (VStr "lo1")]).
Proof.
  cbv zeta. split; [split; [reflexivity|exists (VDict [("area", VInt 0); ("passive", VBool false)]); reflexivity]|]. split; [|reflexivity].
  exists (VDict [("area", VInt 0); ("passive", VBool false)]), (VDict [("area", VInt 0)]). split; [reflexivity|]. split; [reflexivity|]. split; [reflexivity|]. right. reflexivity.
Qed.

(* ------------------------------------------------------------------ *)
(* C240: configuration file of cEOS containers                          *)

Definition mapped (c : clab) : Prop := exists b, In b (or_nil (cl_binds c)) /\ occurs "/mnt/flash/ceos-config" b.

Lemma mapped_spec : forall c, existsb (contains mnt_config) (or_nil (cl_binds c)) = true <-> mapped c.
Proof.
  intros c. rewrite existsb_exists. unfold mapped. split; intros [b [B H]]; exists b; (split; [exact B|]); apply contains_spec; exact H.
Qed.

Lemma app_assoc_str : forall a b c : string, ((a ++ b) ++ c = a ++ (b ++ c))%string.
Proof. induction a as [|x a IH]; intros b c; [reflexivity|]. cbn [String.append]. f_equal. apply IH. Qed.

Lemma append_In : forall x l y, In y (append_to_list x l) <-> In y l \/ y = x.
Proof.
  intros x l y. unfold append_to_list. destruct (memS x l) eqn:E.
  - apply memS_true in E. split; [auto|intros [H|H]; [exact H|subst y; exact E]].
  - rewrite in_app_iff. cbn [In]. split; [intros [H|[H|[]]]; auto|intros [H|H]; auto].
Qed.

Definition bind_of (name : string) : string := ("clab_files/" ++ name ++ "/ceos-config:/mnt/flash/ceos-config")%string.

Lemma bind_occurs : forall name, occurs "/mnt/flash/ceos-config" (bind_of name).
Proof.
  intros name. exists ("clab_files/" ++ name ++ "/ceos-config:")%string, ""%string. unfold bind_of. rewrite !app_assoc_str. reflexivity.
Qed.

(* the file is mapped exactly when a serial number or an address is set in a cEOS container without such a mapping; otherwise nothing changes and the reason is reported *)
Theorem ceos_config_exact : forall name serial mac c,
  let r := configure_ceos name serial mac c in
  (serial = false /\ mac = false -> r = (c, []))
  /\ (serial = true \/ mac = true ->
        (forall l, c = Some l -> cl_kind l = "ceos" -> ~ mapped l ->
           exists l', r = (Some l', []) /\ cl_kind l' = "ceos" /\ cl_binds l' = Some (or_nil (cl_binds l) ++ [bind_of name])
             /\ exists t, cl_templates l' = Some t /\ forall y, In y t <-> In y (or_nil (cl_templates l)) \/ y = "ceos-config:/mnt/flash/ceos-config")
        /\ (forall l, c = Some l -> cl_kind l = "ceos" -> mapped l -> r = (c, [CMapped]))
        /\ ((forall l, c = Some l -> cl_kind l <> "ceos") -> r = (c, [CNotCeos]))).
Proof.
  intros name serial mac c. cbv zeta. unfold configure_ceos. split; [intros [A B]; subst; reflexivity|]. intros H.
  assert (G : negb serial && negb mac = false) by (destruct H; subst; [reflexivity|apply andb_false_r]). rewrite G. split; [|split].
  - intros l E K M. subst c. rewrite K, String.eqb_refl. cbn [negb]. destruct (existsb _ _) eqn:X; [apply mapped_spec in X; contradiction|].
    eexists. split; [reflexivity|]. cbn [cl_kind cl_binds cl_templates]. split; [reflexivity|]. split.
    + f_equal. change (append_to_list (bind_of name) (or_nil (cl_binds l)) = or_nil (cl_binds l) ++ [bind_of name]). unfold append_to_list. destruct (memS (bind_of name) (or_nil (cl_binds l))) eqn:Q; [|reflexivity]. exfalso. apply M. exists (bind_of name). split; [apply memS_true; exact Q|apply bind_occurs].
    + eexists. split; [reflexivity|]. intros y. apply append_In.
  - intros l E K M. subst c. rewrite K, String.eqb_refl. cbn [negb]. rewrite (proj2 (mapped_spec l) M). reflexivity.
  - intros N. destruct c as [l|]; [|reflexivity]. destruct (String.eqb_spec (cl_kind l) "ceos") as [Q|Q]; [exfalso; exact (N l eq_refl Q)|reflexivity].
Qed.

(* a second call changes nothing *)
Theorem ceos_config_twice : forall name serial mac c,
  fst (configure_ceos name serial mac (fst (configure_ceos name serial mac c))) = fst (configure_ceos name serial mac c).
Proof.
  intros name serial mac c. unfold configure_ceos at 2 3. destruct (negb serial && negb mac) eqn:G; cbn [fst].
  { unfold configure_ceos. rewrite G. reflexivity. }
  destruct c as [l|]; cbn [fst]; [|unfold configure_ceos; rewrite G; reflexivity].
  destruct (String.eqb (cl_kind l) "ceos") eqn:K; cbn [negb fst]; [|unfold configure_ceos; rewrite G, K; reflexivity].
  destruct (existsb (contains mnt_config) (or_nil (cl_binds l))) eqn:X; cbn [fst]; [unfold configure_ceos; rewrite G, K, X; reflexivity|].
  unfold configure_ceos. rewrite G. cbn [cl_kind]. rewrite K. cbn [negb].
  match goal with |- context [existsb (contains mnt_config) (or_nil (cl_binds ?y))] => assert (M : existsb (contains mnt_config) (or_nil (cl_binds y)) = true) end.
  { apply mapped_spec. unfold mapped. cbn [cl_binds or_nil]. exists (bind_of name). split; [apply append_In; right; reflexivity|apply bind_occurs]. }
  rewrite M. reflexivity.
Qed.

Example ceos_config_case :
  configure_ceos "s1" true false (Some (mk_clab "ceos" None None)) =
    (Some (mk_clab "ceos" (Some ["clab_files/s1/ceos-config:/mnt/flash/ceos-config"]) (Some ["ceos-config:/mnt/flash/ceos-config"])), [])
  /\ configure_ceos "s1" false true (Some (mk_clab "ceos" (Some ["x:/mnt/flash/ceos-config"]) None)) = (Some (mk_clab "ceos" (Some ["x:/mnt/flash/ceos-config"]) None), [CMapped])
  /\ configure_ceos "s1" true true None = (None, [CNotCeos]).
Proof. split; [reflexivity|split; reflexivity]. Qed.

Print Assumptions nvue_passive_exact.
Print Assumptions nvue_loopbacks_exact.
Print Assumptions ceos_config_exact.
Print Assumptions ceos_config_twice.
