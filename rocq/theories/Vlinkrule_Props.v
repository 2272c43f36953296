(* Forbidden combinations of VLAN attributes on a link and the VLANs of a trunk (netsim/modules/vlan.py) *)
From Coq Require Import String ZArith Bool List Lia.
From Verif Require Import Base Box_Model Box_Props Vlan_Model Vlink_Model Vlink_Props.
Import ListNotations.
Local Open Scope nat_scope.
Local Open Scope string_scope.
Local Open Scope list_scope.

(* ---- specification: an accepted link ---- *)

Definition used (a : string) (l : vlk) : Prop := exists o, In o (objects l) /\ has a o.
Definition vlan_used (a : string) (l : vlk) (v : string) : Prop := exists o, In o (objects l) /\ uses a o v.

Definition mixed (l : vlk) : Prop := used "trunk" l /\ used "access" l.
Definition native_alone (l : vlk) : Prop := used "native" l /\ ~ used "trunk" l.
Definition two_global (t : vtp) (l : vlk) : Prop :=
  exists v1 v2, v1 <> v2 /\ vlan_used "access" l v1 /\ vlan_used "access" l v2 /\ In v1 (dkeys (tv_vlans t)) /\ In v2 (dkeys (tv_vlans t)).
Definition rejected (t : vtp) (l : vlk) : Prop := mixed l \/ native_alone l \/ two_global t l.

(* no native VLAN of the link is in a trunk *)
Definition native_unknown (l : vlk) : Prop := used "native" l /\ forall v, vlan_used "native" l v -> ~ vlan_used "trunk" l v.

Definition link_obj (l : vlk) : option string * option val := (None, vk_vlan l).

(* the VLANs in the trunk of an interface and its native VLAN: from the interface or from the link *)
Definition on_trunk (l : vlk) (i : vif) (v : string) : Prop := uses "trunk" (vif_obj i) v \/ uses "trunk" (link_obj l) v.
Definition own_native (l : vlk) (i : vif) (v : string) : Prop :=
  uses "native" (vif_obj i) v \/ ((forall x, ~ uses "native" (vif_obj i) x) /\ uses "native" (link_obj l) v).

(* the first native VLAN on the link *)
Definition first_native (l : vlk) (v : string) : Prop :=
  exists p o, nth_error (objects l) p = Some o /\ uses "native" o v /\ forall q o', q < p -> nth_error (objects l) q = Some o' -> ~ has "native" o'.

(* the interfaces with an error *)
Definition if_no_trunk (l : vlk) (i : vif) : Prop := (exists v, own_native l i v) /\ forall v, ~ on_trunk l i v.
Definition if_native (l : vlk) (i : vif) : Prop := exists v w, own_native l i v /\ on_trunk l i w /\ ~ on_trunk l i v.
Definition if_missing (l : vlk) (i : vif) : Prop := (forall v, ~ own_native l i v) /\ exists v, first_native l v /\ on_trunk l i v.
(* not in the native VLAN *)
Definition if_off (l : vlk) (i : vif) : Prop :=
  (forall v, ~ own_native l i v) /\ (exists v, on_trunk l i v) /\ forall v, first_native l v -> ~ on_trunk l i v.

Inductive rule_error (t : vtp) (l : vlk) : vke -> Prop :=
| re_mix : mixed l -> rule_error t l KMix
| re_native : native_alone l -> rule_error t l KNative
| re_global : ~ mixed l -> ~ native_alone l -> two_global t l -> rule_error t l KGlobal
| re_unknown : ~ rejected t l -> native_unknown l -> rule_error t l KNativeTrunk
| re_no_trunk : forall i, ~ rejected t l -> used "native" l -> ~ native_unknown l -> In i (vk_ifs l) -> vf_vlan i <> None ->
    if_no_trunk l i -> rule_error t l (KIfNoTrunk (vf_node i))
| re_if_native : forall i, ~ rejected t l -> used "native" l -> ~ native_unknown l -> In i (vk_ifs l) -> vf_vlan i <> None ->
    if_native l i -> rule_error t l (KIfNative (vf_node i))
| re_missing : forall i, ~ rejected t l -> used "native" l -> ~ native_unknown l -> In i (vk_ifs l) -> vf_vlan i <> None ->
    if_missing l i -> rule_error t l (KIfMissing (vf_node i)).

(* ---- lemmas ---- *)

Lemma mdict_keys : forall db da k, In k (dkeys (mdict da db)) <-> In k (dkeys da) \/ In k (dkeys db).
Proof.
  induction db as [|[k0 v0] r IH]; intros da k; cbn [mdict].
  - cbn. tauto.
  - rewrite IH. change (dkeys ((k0, v0) :: r)) with (k0 :: dkeys r). cbn [In]. rewrite <- !dmem_true. unfold dmem. destruct (string_dec k k0) as [->|N].
    + rewrite dget_dset_same. tauto.
    + rewrite dget_dset_other by auto. intuition congruence.
Qed.

(* a checked attribute dictionary *)
Definition raw (o : option val) (a : string) : option val := match o with Some (VDict d) => dget a d | _ => None end.

Lemma uses_raw : forall a w o v, uses a (w, o) v <-> exists x, raw o a = Some x /\ mentions x v.
Proof.
  intros a w o v. unfold uses, raw. cbn [snd]. split.
  - intros [d [x [-> [D M]]]]. eauto.
  - intros [x [R M]]. destruct o as [[| | | | |d]|]; try discriminate R. eauto.
Qed.
Lemma has_raw : forall a w o, has a (w, o) <-> exists x, raw o a = Some x.
Proof.
  intros a w o. unfold has, raw. cbn [snd]. split.
  - intros [d [x [-> D]]]. eauto.
  - intros [x R]. destruct o as [[| | | | |d]|]; try discriminate R. eauto.
Qed.

(* [o] is the attribute of an accepted object, [o'] the attribute after the check *)
Record checked (o o' : option val) : Prop := {
  ck_none : o = None <-> o' = None;
  ck_native : forall x, raw o "native" = Some x -> exists s, x = VStr s /\ s <> "" /\ raw o' "native" = Some (VStr s);
  ck_nonat : raw o "native" = None -> raw o' "native" = None;
  ck_trunk : forall x, raw o "trunk" = Some x -> exists d, raw o' "trunk" = Some (VDict d) /\ forall v, In v (dkeys d) <-> mentions x v;
  ck_notrunk : raw o "trunk" = None -> raw o' "trunk" = None
}.

Lemma clean_checked : forall t w o o' n1 n2 d1 d2, (forall w, ~ defined t w "") -> accepted t (w, o) -> clean (mk_vif n1 o d1) (mk_vif n2 o' d2) -> checked o o'.
Proof.
  intros t w o o' n1 n2 d1 d2 E A [_ [_ C]]. cbn [vf_vlan] in C. destruct o as [v|].
  2:{ subst o'. constructor; cbn; try tauto; discriminate. }
  destruct v as [| | | | |d]; try contradiction. destruct C as [d' [-> [K C]]].
  assert (NN : forall a, dget a d = None -> dget a d' = None) by (intros a; rewrite !dget_None, K; auto).
  constructor; cbn [raw].
  - split; discriminate.
  - intros x X. destruct (C _ _ X) as [y [Y1 Y2]]. assert (R : right_type "native" x).
    { destruct (conv "native" x) eqn:Q; [apply conv_right; congruence|]. exfalso. apply (A (KType w "native")). exists (VDict d). split; [auto|].
      econstructor; [cbn; tauto|exact X|]. intros R. apply conv_right in R. congruence. }
    destruct R as [s ->]. cbn in Y2. subst y. exists s. split; [auto|]. split; [|auto]. intros ->.
    apply (A (KUndef w "native" "")). exists (VDict d). split; [auto|]. econstructor; [cbn; tauto|exact X|exists ""; auto|constructor|auto].
  - apply NN.
  - intros x X. destruct (C _ _ X) as [y [Y1 Y2]]. assert (R : right_type "trunk" x).
    { destruct (conv "trunk" x) eqn:Q; [apply conv_right; congruence|]. exfalso. apply (A (KType w "trunk")). exists (VDict d). split; [auto|].
      econstructor; [cbn; tauto|exact X|]. intros R. apply conv_right in R. congruence. }
    destruct R as [[z ->]|[z ->]].
    + cbn in Y2. destruct Y2 as [z' [-> F]]. exists z'. split; [auto|]. intros v.
      assert (KK : dkeys z' = dkeys z) by (clear - F; induction F as [|p q l l' [H1 H2] F IH]; unfold dkeys in *; cbn [map]; congruence). rewrite KK. split.
      * intros I. constructor. auto.
      * intros M. inversion M; subst. auto.
    + cbn in Y2. destruct Y2 as [z' [-> [ND F]]]. exists z'. split; [auto|]. intros v. split.
      * intros I. apply in_map_iff in I. destruct I as [[k q] [<- I]]. apply F in I. constructor. tauto.
      * intros M. inversion M; subst. apply in_map_iff. exists (v, VDict []). split; [auto|]. apply F. auto.
  - apply NN.
Qed.

Lemma vget_raw : forall o a, vget o a = match raw o a with Some x => if truthy x then Some x else None | None => None end.
Proof.
  intros o a. unfold vget, raw. destruct o as [[| | | | |d]|]; cbn [lookup]; auto. destruct (dget a d); auto.
Qed.

Lemma raw_trunk : forall o o', checked o o' ->
  (exists d, vget o' "trunk" = Some (VDict d) /\ (exists v, In v (dkeys d)) /\ forall w v, In v (dkeys d) <-> uses "trunk" (w, o) v) \/
  (vget o' "trunk" = None /\ forall w v, ~ uses "trunk" (w, o) v).
Proof.
  intros o o' C. rewrite vget_raw. destruct (raw o "trunk") as [x|] eqn:R.
  - destruct (ck_trunk _ _ C _ R) as [d [-> D]]. destruct d as [|[k z] d]; cbn [truthy].
    + right. split; [auto|]. intros w v U. apply uses_raw in U. destruct U as [y [Y1 Y2]]. rewrite R in Y1. injection Y1 as <-. apply (proj2 (D v)) in Y2. destruct Y2.
    + left. exists ((k, z) :: d). split; [auto|]. split; [exists k; now left|]. intros w v. rewrite D, uses_raw, R. split; [eauto|].
      intros [y [Y1 Y2]]. injection Y1 as <-. auto.
  - right. rewrite (ck_notrunk _ _ C R). split; [auto|]. intros w v U. apply uses_raw in U. destruct U as [y [Y1 Y2]]. congruence.
Qed.

Lemma raw_native : forall o o', checked o o' ->
  (exists s, vget o' "native" = Some (VStr s) /\ forall w v, uses "native" (w, o) v <-> v = s) \/
  (vget o' "native" = None /\ forall w v, ~ uses "native" (w, o) v).
Proof.
  intros o o' C. rewrite vget_raw. destruct (raw o "native") as [x|] eqn:R.
  - destruct (ck_native _ _ C _ R) as [s [-> [S ->]]]. left. exists s. cbn [truthy]. destruct (String.eqb_spec s "") as [Q|Q]; [contradiction|].
    cbn [negb]. split; [auto|]. intros w v. rewrite uses_raw, R. split.
    + intros [y [Y1 Y2]]. injection Y1 as <-. inversion Y2; auto.
    + intros ->. exists (VStr s). split; [auto|constructor].
  - right. rewrite (ck_nonat _ _ C R). split; [auto|]. intros w v U. apply uses_raw in U. destruct U as [y [Y1 Y2]]. congruence.
Qed.

(* the effective trunk and native VLAN of an interface *)
Lemma effective_trunk : forall l i i' lv', checked (vf_vlan i) (vf_vlan i') -> checked (vk_vlan l) lv' ->
  (exists d, effective "trunk" (vf_vlan i') lv' = Some (VDict d) /\ (exists v, In v (dkeys d)) /\ forall v, In v (dkeys d) <-> on_trunk l i v) \/
  (effective "trunk" (vf_vlan i') lv' = None /\ forall v, ~ on_trunk l i v).
Proof.
  intros l i i' lv' C1 C2. unfold effective, on_trunk, vif_obj, link_obj.
  destruct (raw_trunk _ _ C1) as [[d [D1 [D2 D3]]]|[D1 D2]]; destruct (raw_trunk _ _ C2) as [[g [G1 [G2 G3]]]|[G1 G2]]; rewrite D1, ?G1; cbn [is_dict].
  - left. exists (mdict g d). rewrite merge_dicts. split; [auto|]. split.
    + destruct D2 as [v V]. exists v. apply mdict_keys. auto.
    + intros v. rewrite mdict_keys, (D3 (Some (vf_node i))), (G3 None). tauto.
  - left. exists d. split; [auto|]. split; [auto|]. intros v. rewrite (D3 (Some (vf_node i))). split; [auto|]. intros [H|H]; [auto|]. apply G2 in H. destruct H.
  - left. exists g. split; [auto|]. split; [auto|]. intros v. rewrite (G3 None). split; [auto|]. intros [H|H]; [apply D2 in H; destruct H|auto].
  - right. split; [auto|]. intros v [H|H]; [apply D2 in H|apply G2 in H]; auto.
Qed.

Lemma effective_native : forall l i i' lv', checked (vf_vlan i) (vf_vlan i') -> checked (vk_vlan l) lv' ->
  (exists s, effective "native" (vf_vlan i') lv' = Some (VStr s) /\ forall v, own_native l i v <-> v = s) \/
  (effective "native" (vf_vlan i') lv' = None /\ forall v, ~ own_native l i v).
Proof.
  intros l i i' lv' C1 C2. unfold effective, own_native, vif_obj, link_obj.
  destruct (raw_native _ _ C1) as [[s [D1 D2]]|[D1 D2]]; rewrite D1; cbn [is_dict].
  - left. exists s. split; [auto|]. intros v. rewrite (D2 (Some (vf_node i))). split; [|auto]. intros [H|[H _]]; [auto|].
    exfalso. apply (H s). apply D2. auto.
  - destruct (raw_native _ _ C2) as [[s [G1 G2]]|[G1 G2]]; rewrite G1.
    + left. exists s. split; [auto|]. intros v. rewrite (G2 None). split.
      * intros [H|[_ H]]; [apply D2 in H; destruct H|auto].
      * intros ->. right. split; [apply D2|auto].
    + right. split; [auto|]. intros v [H|[_ H]]; [apply D2 in H|apply G2 in H]; auto.
Qed.

Definition off (i i' : vif) : Prop :=
  vf_node i' = vf_node i /\ vf_vlan i' = vf_vlan i /\ vf_data i' = dset "ipv6" (VBool false) (dset "ipv4" (VBool false) (vf_data i)).

Lemma native_intf_exact : forall l i i' lv' nat i'' e, checked (vf_vlan i) (vf_vlan i') -> checked (vk_vlan l) lv' ->
  (forall v, first_native l v <-> v = nat) -> vf_node i' = vf_node i -> native_intf nat lv' i' = (i'', e) ->
  (forall k, In k e <-> vf_vlan i <> None /\
     ((k = KIfNoTrunk (vf_node i) /\ if_no_trunk l i) \/ (k = KIfNative (vf_node i) /\ if_native l i) \/ (k = KIfMissing (vf_node i) /\ if_missing l i))) /\
  ((vf_vlan i <> None /\ if_off l i) -> off i' i'') /\ (~ (vf_vlan i <> None /\ if_off l i) -> i'' = i').
Proof.
  intros l i i' lv' nat i'' e C1 C2 FN ND H. unfold native_intf in H. destruct (vf_vlan i') as [x|] eqn:V'.
  2:{ assert (V : vf_vlan i = None) by (apply (ck_none _ _ C1); auto). injection H as <- <-. rewrite V. split; [intros k; split; [intros []|intros [Q _]; congruence]|]. split; [intros [Q _]; congruence|auto]. }
  assert (V : vf_vlan i <> None) by (intros Q; apply (ck_none _ _ C1) in Q; discriminate Q).
  rewrite <- V' in H, C1.
  destruct (effective_native l i i' lv' C1 C2) as [[s [N1 N2]]|[N1 N2]]; rewrite N1 in H;
  destruct (effective_trunk l i i' lv' C1 C2) as [[d [T1 [T2 T3]]]|[T1 T2]]; rewrite T1 in H.
  - cbn [vmember] in H. injection H as <- <-.
    assert (NO : ~ if_off l i) by (intros [Q _]; apply (Q s), N2; auto).
    assert (NM : ~ if_missing l i) by (intros [Q _]; apply (Q s), N2; auto).
    assert (NT : ~ if_no_trunk l i) by (destruct T2 as [v T2]; intros [_ Q]; apply (Q v), T3; auto).
    split; [|tauto]. intros k. destruct (dmem s d) eqn:M.
    + apply dmem_true, T3 in M. split; [intros []|]. intros [_ [[_ Q]|[[_ Q]|[_ Q]]]]; try contradiction.
      destruct Q as [v [w [Q1 [_ Q2]]]]. apply N2 in Q1. subst v. contradiction.
    + rewrite ND. split.
      * intros [<-|[]]. split; [auto|]. right. left. split; [auto|]. destruct T2 as [w T2]. exists s, w. split; [apply N2; auto|]. split; [apply T3; auto|].
        rewrite <- T3, <- dmem_true. congruence.
      * intros [_ [[_ Q]|[[-> Q]|[_ Q]]]]; try contradiction. now left.
  - injection H as <- <-. rewrite ND.
    assert (NO : ~ if_off l i) by (intros [Q _]; apply (Q s), N2; auto).
    assert (NM : ~ if_missing l i) by (intros [Q _]; apply (Q s), N2; auto).
    assert (NI : ~ if_native l i) by (intros [v [w [_ [Q _]]]]; apply T2 in Q; auto).
    split; [|tauto]. intros k. split.
    + intros [<-|[]]. split; [auto|]. left. split; [auto|]. split; [exists s; apply N2; auto|auto].
    + intros [_ [[-> Q]|[[_ Q]|[_ Q]]]]; try contradiction. now left.
  - assert (NT : ~ if_no_trunk l i) by (intros [[v Q] _]; apply N2 in Q; auto).
    assert (NI : ~ if_native l i) by (intros [v [w [Q _]]]; apply N2 in Q; auto).
    cbn [vmember] in H. destruct (dmem nat d) eqn:M.
    + apply dmem_true, T3 in M. injection H as <- <-. rewrite ND.
      assert (NO : ~ if_off l i) by (intros [_ [_ Q]]; apply (Q nat); [apply FN; auto|auto]).
      split; [|tauto]. intros k. split.
      * intros [<-|[]]. split; [auto|]. right. right. split; [auto|]. split; [auto|]. exists nat. split; [apply FN; auto|auto].
      * intros [_ [[_ Q]|[[_ Q]|[-> Q]]]]; try contradiction. now left.
    + injection H as <- <-. assert (NM : ~ if_missing l i).
      { intros [_ [v [Q1 Q2]]]. apply FN in Q1. subst v. apply T3, dmem_true in Q2. congruence. }
      assert (O : if_off l i).
      { split; [auto|]. split; [destruct T2 as [v T2]; exists v; apply T3; auto|]. intros v Q1 Q2. apply FN in Q1. subst v. apply T3, dmem_true in Q2. congruence. }
      split; [intros k; split; [intros []|intros [_ [[_ Q]|[[_ Q]|[_ Q]]]]; contradiction]|]. split; [|tauto]. intros _. unfold off. cbn. auto.
  - injection H as <- <-.
    assert (NT : ~ if_no_trunk l i) by (intros [[v Q] _]; apply N2 in Q; auto).
    assert (NI : ~ if_native l i) by (intros [v [w [Q _]]]; apply N2 in Q; auto).
    assert (NM : ~ if_missing l i) by (intros [_ [v [_ Q]]]; apply T2 in Q; auto).
    assert (NO : ~ if_off l i) by (intros [_ [[v Q] _]]; apply T2 in Q; auto).
    split; [intros k; split; [intros []|intros [_ [[_ Q]|[[_ Q]|[_ Q]]]]; contradiction]|]. tauto.
Qed.

Lemma several_iff : forall l, several l = true <-> exists a b, a <> b /\ In a l /\ In b l.
Proof.
  intros l. unfold several. pose proof (NoDup_nodup string_dec l) as N. pose proof (fun x => nodup_In string_dec l x) as I.
  destruct (nodup string_dec l) as [|a [|b r]].
  - split; [discriminate|]. intros [a [b [_ [A _]]]]. apply I in A. destruct A.
  - split; [discriminate|]. intros [x [y [D [A B]]]]. apply I in A, B. destruct A as [<-|[]]. destruct B as [<-|[]]. contradiction.
  - split; [intros _|auto]. exists a, b. inversion N as [|? ? N1 _]; subst. split; [intros ->; apply N1; now left|]. split; apply I; cbn; auto.
Qed.

Lemma colist_In : forall t l l1 va e a v, check_link t l = (l1, va, true, e) -> In a ["access"; "native"; "trunk"] ->
  (In v (colist a va) <-> vlan_used a l v).
Proof.
  intros t l l1 va e a v H A. destruct (link_vlans_collected _ _ _ _ _ H a A) as [M C]. unfold colist. destruct (dget a va) as [c|] eqn:D.
  - apply (C c eq_refl).
  - split; [intros []|]. intros [o [I [d [x [O [X _]]]]]]. assert (Q : dmem a va = true) by (apply M; exists o; split; [auto|exists d, x; auto]).
    unfold dmem in Q. rewrite D in Q. discriminate Q.
Qed.

Lemma native_list : forall t l l1 va e, check_link t l = (l1, va, true, e) -> colist "native" va = attr_list "native" l.
Proof.
  intros t l l1 va e H. destruct (link_vlans_collected _ _ _ _ _ H "native") as [M C]; [cbn; auto|]. unfold colist. destruct (dget "native" va) as [c|] eqn:D.
  - apply (C c eq_refl). discriminate.
  - unfold attr_list. assert (Z : forall o, In o (objects l) -> ~ has "native" o).
    { intros o I Hs. assert (Q : dmem "native" va = true) by (apply M; eauto). unfold dmem in Q. rewrite D in Q. discriminate Q. }
    revert Z. generalize (objects l). induction l0 as [|o r IH]; intros Z; cbn [flat_map]; [auto|]. rewrite <- IH; [|intros o' I; apply Z; now right].
    rewrite app_nil_r. specialize (Z o (or_introl eq_refl)). destruct (snd o) as [[| | | | |d]|] eqn:S; auto.
    destruct (dget "native" d) as [x|] eqn:G; [|auto]. exfalso. apply Z. exists d, x. auto.
Qed.

Lemma head_native : forall t l nat r, (forall o, In o (objects l) -> accepted t o) -> attr_list "native" l = nat :: r ->
  forall v, first_native l v <-> v = nat.
Proof.
  intros t l nat r A H v. unfold first_native. unfold attr_list in H. revert A H. generalize (objects l). intros os A H.
  assert (S : forall o, In o os -> has "native" o -> exists d s, snd o = Some (VDict d) /\ dget "native" d = Some (VStr s)).
  { intros o I [d [x [O X]]]. exists d. destruct (conv "native" x) as [y|] eqn:C.
    - assert (R : right_type "native" x) by (apply conv_right; congruence). destruct R as [s ->]. exists s. auto.
    - exfalso. apply (A o I (KType (fst o) "native")). exists (VDict d). split; [auto|]. econstructor; [cbn; tauto|exact X|].
      intros R. apply conv_right in R. congruence. }
  clear A. induction os as [|o os IH]; cbn [flat_map] in H; [discriminate H|].
  assert (DEC : has "native" o \/ ~ has "native" o).
  { unfold has. destruct (snd o) as [[| | | | |d]|]; try (right; intros [d' [x [Q _]]]; discriminate Q).
    destruct (dget "native" d) as [x|] eqn:D; [left; eauto|]. right. intros [d' [x [Q G]]]. injection Q as <-. congruence. }
  destruct DEC as [Hs|NH].
  - destruct (S o (or_introl eq_refl) Hs) as [d [s [O X]]]. rewrite O, X in H. cbn [app] in H. injection H as <- _. split.
    + intros [[|p] [o' [P [U F]]]].
      * cbn in P. injection P as <-. destruct U as [d' [x' [O' [X' Mn]]]]. rewrite O in O'. injection O' as <-. rewrite X in X'. injection X' as <-. inversion Mn. auto.
      * exfalso. apply (F 0 o); [lia|auto|auto].
    + intros ->. exists 0, o. split; [auto|]. split; [exists d, (VStr s); repeat split; auto; constructor|]. intros q o' Q. lia.
  - assert (E : match snd o with Some (VDict d) => match dget "native" d with Some (VStr s) => [s] | _ => [] end | _ => [] end = []).
    { destruct (snd o) as [[| | | | |d]|] eqn:O; auto. destruct (dget "native" d) as [x|] eqn:D; [|auto]. exfalso. apply NH. exists d, x. auto. }
    rewrite E in H. cbn [app] in H. rewrite <- (IH H (fun x I => S x (or_intror I))). split.
    + intros [[|p] [o' [P [U F]]]].
      * cbn in P. injection P as <-. exfalso. apply NH. destruct U as [d [x [O [X _]]]]. exists d, x. auto.
      * exists p, o'. split; [auto|]. split; [auto|]. intros q o'' Q Q'. apply (F (Datatypes.S q) o''); [lia|auto].
    + intros [p [o' [P [U F]]]]. exists (Datatypes.S p), o'. split; [auto|]. split; [auto|]. intros [|q] o'' Q Q'; [cbn in Q'; injection Q' as <-; auto|].
      apply (F q o''); [lia|auto].
Qed.

(* C132: the errors reported for an accepted link; a rejected link is not processed, any other link is, even when
   there are errors in its native VLANs. Interfaces outside of the native VLAN get no addresses. *)
Theorem link_rules_exact : forall t l l1 va e1 r l2 e, (forall w, ~ defined t w "") ->
  check_link t l = (l1, va, true, e1) -> validate_link va l1 = (r, l2, e) ->
  (r = false <-> rejected t l) /\ (forall k, In k e <-> rule_error t l k) /\
  vk_name l2 = vk_name l1 /\ vk_index l2 = vk_index l1 /\ vk_vlan l2 = vk_vlan l1 /\ vk_data l2 = vk_data l1 /\ length (vk_ifs l2) = length (vk_ifs l1) /\
  forall p i i1, nth_error (vk_ifs l) p = Some i -> nth_error (vk_ifs l1) p = Some i1 ->
    let native := ~ rejected t l /\ used "native" l /\ ~ native_unknown l /\ vf_vlan i <> None /\ if_off l i in
    exists i2, nth_error (vk_ifs l2) p = Some i2 /\ (native -> off i1 i2) /\ (~ native -> i2 = i1).
Proof.
  intros t l l1 va e1 r l2 e NE CH V. pose proof (link_vlan_errors_exact _ _ _ _ _ _ CH) as LE. destruct LE as [_ [AC NR]].
  pose proof (proj1 AC eq_refl) as ACC. destruct (NR eq_refl) as [_ [_ [_ [_ [CI CL]]]]]. clear AC NR.
  assert (DM : forall a, In a ["access"; "native"; "trunk"] -> (dmem a va = true <-> used a l)) by (intros a A; apply (link_vlans_collected _ _ _ _ _ CH a A)).
  assert (MT : dmem "trunk" va = true <-> used "trunk" l) by (apply DM; cbn; auto).
  assert (MA : dmem "access" va = true <-> used "access" l) by (apply DM; cbn; auto).
  assert (MN : dmem "native" va = true <-> used "native" l) by (apply DM; cbn; auto).
  unfold validate_link in V.
  assert (B1 : dmem "trunk" va && dmem "access" va = true <-> mixed l) by (rewrite andb_true_iff, MT, MA; unfold mixed; tauto).
  assert (B2 : dmem "native" va && negb (dmem "trunk" va) = true <-> native_alone l).
  { rewrite andb_true_iff, negb_true_iff, MN. unfold native_alone. rewrite <- MT. destruct (dmem "trunk" va); intuition discriminate. }
  assert (B3 : match dget "access" va with Some c => several (co_global c) | None => false end = true <-> two_global t l).
  { destruct (link_vlans_collected _ _ _ _ _ CH "access") as [Q1 Q2]; [cbn; auto|]. unfold two_global, vlan_used. destruct (dget "access" va) as [c|] eqn:D.
    - destruct (Q2 c eq_refl) as [_ [Q3 _]]. rewrite several_iff. split.
      + intros [a [b [N [X Y]]]]. apply Q3 in X, Y. exists a, b. tauto.
      + intros [a [b [N [X [Y [X' Y']]]]]]. exists a, b. rewrite !Q3. tauto.
    - split; [discriminate|]. intros [a [b [N [[o [I [d [x [O [X _]]]]]] _]]]]. exfalso.
      assert (Q : dmem "access" va = true) by (apply Q1; exists o; split; [auto|exists d, x; auto]). unfold dmem in Q. rewrite D in Q. discriminate Q. }
  destruct (dmem "trunk" va && dmem "access" va) eqn:C1.
  { pose proof (proj1 B1 eq_refl) as M. injection V as <- <- <-. assert (R : rejected t l) by (left; auto).
    assert (NA : ~ native_alone l) by (destruct M as [M _]; intros [_ Q]; contradiction).
    split; [tauto|]. split.
    { intros k. split.
      - intros [<-|[]]. constructor. auto.
      - intros K. inversion K; subst; try contradiction. now left. }
    do 5 (split; [auto|]). intros p i i1 P P1 native. exists i1. split; [auto|]. split; [intros [Q _]; contradiction|auto]. }
  assert (N1 : ~ mixed l) by (intros Q; apply B1 in Q; discriminate Q). clear B1 C1.
  destruct (dmem "native" va && negb (dmem "trunk" va)) eqn:C2.
  { pose proof (proj1 B2 eq_refl) as M. injection V as <- <- <-. assert (R : rejected t l) by (right; left; auto).
    split; [tauto|]. split.
    { intros k. split.
      - intros [<-|[]]. constructor. auto.
      - intros K. inversion K; subst; try contradiction. now left. }
    do 5 (split; [auto|]). intros p i i1 P P1 native. exists i1. split; [auto|]. split; [intros [Q _]; contradiction|auto]. }
  assert (N2 : ~ native_alone l) by (intros Q; apply B2 in Q; discriminate Q). clear B2 C2.
  destruct (match dget "access" va with Some c => several (co_global c) | None => false end) eqn:C3.
  { pose proof (proj1 B3 eq_refl) as M. injection V as <- <- <-. assert (R : rejected t l) by (right; right; auto).
    split; [tauto|]. split.
    { intros k. split.
      - intros [<-|[]]. constructor; auto.
      - intros K. inversion K; subst; try contradiction. now left. }
    do 5 (split; [auto|]). intros p i i1 P P1 native. exists i1. split; [auto|]. split; [intros [Q _]; contradiction|auto]. }
  assert (N3 : ~ two_global t l) by (intros Q; apply B3 in Q; discriminate Q). clear B3 C3.
  assert (NR : ~ rejected t l) by (intros [Q|[Q|Q]]; contradiction).
  pose proof (native_list _ _ _ _ _ CH) as NL.
  assert (UN : used "native" l <-> colist "native" va <> []).
  { split.
    - intros [o [I [d [x [O X]]]]] Z. assert (W : vlan_used "native" l (match x with VStr s => s | _ => "" end)).
      { exists o. split; [auto|]. exists d, x. split; [auto|]. split; [auto|]. destruct (conv "native" x) as [y|] eqn:C.
        - assert (R : right_type "native" x) by (apply conv_right; congruence). destruct R as [s ->]. constructor.
        - exfalso. apply (ACC o I (KType (fst o) "native")). exists (VDict d). split; [auto|]. econstructor; [cbn; tauto|exact X|].
          intros R. apply conv_right in R. congruence. }
      apply (colist_In _ _ _ _ _ "native" _ CH) in W; [|cbn; auto]. rewrite Z in W. destruct W.
    - intros Z. destruct (colist "native" va) as [|s q] eqn:E; [congruence|]. assert (W : In s (colist "native" va)) by (rewrite E; now left).
      apply (colist_In _ _ _ _ _ "native" _ CH) in W; [|cbn; auto]. destruct W as [o [I [d [x [O [X _]]]]]]. exists o. split; [auto|]. exists d, x. auto. }
  destruct (colist "native" va) as [|nat q] eqn:E.
  { injection V as <- <- <-. assert (NU : ~ used "native" l) by (intros Q; apply UN in Q; congruence). split; [split; [discriminate|contradiction]|].
    split; [intros k; split; [intros []|intros K; inversion K; subst; try contradiction]|].
    - match goal with Q : native_unknown l |- _ => destruct Q; contradiction end.
    - do 5 (split; [auto|]). intros p i i1 P P1 native. exists i1. split; [auto|]. split; [intros [_ [Q _]]; contradiction|auto]. }
  assert (U : used "native" l) by (apply UN; discriminate).
  assert (XU : existsb (fun x => memS x (colist "trunk" va)) (nat :: q) = false <-> native_unknown l).
  { rewrite <- E. unfold native_unknown. split.
    - intros X. split; [auto|]. intros v V1 V2. apply (colist_In _ _ _ _ _ "native" _ CH) in V1; [|cbn; auto].
      apply (colist_In _ _ _ _ _ "trunk" _ CH) in V2; [|cbn; auto]. assert (T : existsb (fun x => memS x (colist "trunk" va)) (colist "native" va) = true).
      { apply existsb_exists. exists v. split; [auto|]. apply memS_true. auto. }
      congruence.
    - intros [_ X]. destruct (existsb (fun x => memS x (colist "trunk" va)) (colist "native" va)) eqn:T; [|auto]. exfalso. apply existsb_exists in T. destruct T as [v [V1 V2]]. apply memS_true in V2.
      try rewrite <- E in V1. apply (colist_In _ _ _ _ _ "native" _ CH) in V1; [|cbn; auto]. apply (colist_In _ _ _ _ _ "trunk" _ CH) in V2; [|cbn; auto]. exact (X v V1 V2). }
  destruct (existsb (fun x => memS x (colist "trunk" va)) (nat :: q)) eqn:X; cbn [negb] in V.
  2:{ pose proof (proj1 XU eq_refl) as NU. injection V as <- <- <-. split; [split; [discriminate|contradiction]|]. split.
      { intros k. split.
        - intros [<-|[]]. constructor; auto.
        - intros K. inversion K; subst; try contradiction. now left. }
      do 5 (split; [auto|]). intros p i i1 P P1 native. exists i1. split; [auto|]. split; [intros [_ [_ [Q _]]]; contradiction|auto]. }
  assert (KN : ~ native_unknown l) by (intros Q; apply XU in Q; discriminate Q).
  assert (FN : forall v, first_native l v <-> v = nat) by (eapply head_native; [exact ACC|rewrite <- NL; reflexivity]).
  injection V as <- <- <-. split; [split; [discriminate|contradiction]|].
  assert (CKL : checked (vk_vlan l) (vk_vlan l1)) by (eapply (clean_checked t None); [exact NE|apply ACC; now left|exact CL]).
  assert (CKI : forall p i i1, nth_error (vk_ifs l) p = Some i -> nth_error (vk_ifs l1) p = Some i1 -> checked (vf_vlan i) (vf_vlan i1) /\ vf_node i1 = vf_node i).
  { assert (ACI : forall i, In i (vk_ifs l) -> accepted t (vif_obj i)) by (intros i I; apply ACC; right; apply in_map_iff; exists i; auto).
    clear - NE ACI CI. revert ACI. induction CI as [|a b la lb C F IH]; intros ACI [|p] i i1 P P1; try discriminate P; cbn in P, P1.
    - injection P as <-. injection P1 as <-. split; [|apply C]. destruct a as [n1 v1 dd1], b as [n2 v2 dd2].
      eapply (clean_checked t (Some n1)); [exact NE|exact (ACI _ (or_introl eq_refl))|exact C].
    - eapply IH; [intros j J; apply ACI; now right|exact P|exact P1]. }
  assert (LEN : length (vk_ifs l) = length (vk_ifs l1)) by (eapply Forall2_length; exact CI).
  split.
  - intros k. rewrite in_flat_map. split.
    + intros [[i2 e2] [I K]]. apply in_map_iff in I. destruct I as [i1 [Q I]]. apply In_nth_error in I. destruct I as [p P1].
      destruct (nth_error (vk_ifs l) p) as [i|] eqn:P.
      2:{ apply nth_error_None in P. assert (p < length (vk_ifs l1)) by (apply nth_error_Some; congruence). lia. }
      destruct (CKI _ _ _ P P1) as [G1 G2]. destruct (native_intf_exact _ _ _ _ _ _ _ G1 CKL FN G2 Q) as [W _].
      apply W in K. destruct K as [K0 [[-> K]|[[-> K]|[-> K]]]]; constructor; auto; eapply nth_error_In; exact P.
    + intros K. assert (Z : forall i, In i (vk_ifs l) -> vf_vlan i <> None ->
        ((k = KIfNoTrunk (vf_node i) /\ if_no_trunk l i) \/ (k = KIfNative (vf_node i) /\ if_native l i) \/ (k = KIfMissing (vf_node i) /\ if_missing l i)) ->
        exists x, In x (map (native_intf nat (vk_vlan l1)) (vk_ifs l1)) /\ In k (snd x)).
      { intros i I VV KK. apply In_nth_error in I. destruct I as [p P]. destruct (nth_error (vk_ifs l1) p) as [i1|] eqn:P1.
        2:{ apply nth_error_None in P1. assert (p < length (vk_ifs l)) by (apply nth_error_Some; congruence). lia. }
        destruct (CKI _ _ _ P P1) as [G1 G2]. destruct (native_intf nat (vk_vlan l1) i1) as [i2 e2] eqn:Q.
        destruct (native_intf_exact _ _ _ _ _ _ _ G1 CKL FN G2 Q) as [W _]. exists (i2, e2). split.
        - apply in_map_iff. exists i1. split; [auto|]. eapply nth_error_In. exact P1.
        - apply W. auto. }
      inversion K; subst; try contradiction; eapply Z; eauto.
  - cbn [set_ifs vk_name vk_index vk_vlan vk_data vk_ifs]. do 4 (split; [auto|]). split; [rewrite !map_length; auto|].
    intros p i i1 P P1. destruct (CKI _ _ _ P P1) as [G1 G2]. destruct (native_intf nat (vk_vlan l1) i1) as [i2 e2] eqn:Q.
    destruct (native_intf_exact _ _ _ _ _ _ _ G1 CKL FN G2 Q) as [_ [W1 W2]]. exists i2. split; [|split].
    + erewrite map_nth_error; [|erewrite map_nth_error; [reflexivity|exact P1]]. rewrite Q. auto.
    + intros [_ [_ [_ Z]]]. apply W1. exact Z.
    + intros Z. apply W2. intros Y. apply Z. split; [auto|]. split; [auto|]. split; auto.
Qed.

(* ---- the VLANs of a trunk ---- *)

(* the attributes of an interface after the link attributes were merged *)
Definition trunk_has (i : vif) (v : string) : Prop :=
  exists d x, vf_vlan i = Some (VDict d) /\ dget "trunk" d = Some (VDict x) /\ In v (dkeys x).
Definition native_is (i : vif) (v : string) : Prop := exists d, vf_vlan i = Some (VDict d) /\ dget "native" d = Some (VStr v).
Definition has_native (i : vif) : Prop := exists d x, vf_vlan i = Some (VDict d) /\ dget "native" d = Some x.
Definition has_trunk (i : vif) : Prop := exists d x, vf_vlan i = Some (VDict d) /\ dget "trunk" d = Some (VDict x).

(* nodes without VLANs on a trunk without a native VLAN *)
Definition no_native (ifs : list vif) : Prop := (exists i, In i ifs /\ vf_vlan i = None) /\ forall i, In i ifs -> ~ has_native i.

(* a VLAN used by a single interface, other than a native VLAN used by nodes without VLANs *)
Definition unused (ifs : list vif) (n v : string) : Prop :=
  exists p i, nth_error ifs p = Some i /\ vf_node i = n /\ trunk_has i v /\
    (forall q j, q <> p -> nth_error ifs q = Some j -> ~ trunk_has j v) /\
    ~ (native_is i v /\ exists j, In j ifs /\ vf_vlan j = None).

Lemma vattr_raw : forall a i, vattr_of a i = raw (vf_vlan i) a.
Proof. intros a i. unfold vattr_of, raw. destruct (vf_vlan i) as [[| | | | |d]|]; cbn [lookup]; auto. destruct (dget a d); auto. Qed.

Lemma in_trunk_iff : forall v i, in_trunk v i = true <-> trunk_has i v.
Proof.
  intros v i. unfold in_trunk, trunk_has. rewrite vattr_raw. unfold raw. destruct (vf_vlan i) as [[| | | | |d]|]; try (split; [discriminate|intros [d' [x [Q _]]]; discriminate Q]).
  destruct (dget "trunk" d) as [x|] eqn:D.
  - split.
    + intros H. destruct x as [| | | | |x]; try discriminate H. exists d, x. cbn [vmember] in H. apply dmem_true in H. auto.
    + intros [d' [x' [Q [G I]]]]. injection Q as <-. rewrite D in G. injection G as ->. cbn [vmember]. apply dmem_true. auto.
  - split; [discriminate|]. intros [d' [x' [Q [G I]]]]. injection Q as <-. congruence.
Qed.

Lemma unused_vlans_In : forall needs i others names k, In k (unused_vlans needs i others names) <->
  exists v, In v names /\ k = KUnused (vf_node i) v /\ (forall j, In j others -> ~ trunk_has j v) /\ ~ (native_is i v /\ needs = true).
Proof.
  intros needs i others names k. induction names as [|v r IH]; cbn [unused_vlans].
  - split; [intros []|]. intros [v [[] _]].
  - rewrite in_app_iff, IH. clear IH.
    assert (NA : match vattr_of "native" i with Some (VStr s) => String.eqb v s | _ => false end = true <-> native_is i v).
    { rewrite vattr_raw. unfold native_is, raw. destruct (vf_vlan i) as [[| | | | |d]|]; try (split; [discriminate|intros [d' [Q _]]; discriminate Q]).
      split.
      - intros H. exists d. split; [auto|]. destruct (dget "native" d) as [[| | |s| |]|]; try discriminate H. apply String.eqb_eq in H. congruence.
      - intros [d' [Q G]]. injection Q as <-. rewrite G. apply String.eqb_refl. }
    assert (H : In k (if existsb (in_trunk v) others then [] else if match vattr_of "native" i with Some (VStr s) => String.eqb v s | _ => false end && needs then [] else [KUnused (vf_node i) v]) <->
      k = KUnused (vf_node i) v /\ (forall j, In j others -> ~ trunk_has j v) /\ ~ (native_is i v /\ needs = true)).
    { destruct (existsb (in_trunk v) others) eqn:X.
      - split; [intros []|]. intros [_ [Q _]]. apply existsb_exists in X. destruct X as [j [J T]]. apply in_trunk_iff in T. apply (Q j J T).
      - assert (XN : forall j, In j others -> ~ trunk_has j v).
        { intros j J T. apply in_trunk_iff in T. assert (Y : existsb (in_trunk v) others = true) by (apply existsb_exists; eauto). congruence. }
        destruct (match vattr_of "native" i with Some (VStr s) => String.eqb v s | _ => false end && needs) eqn:B.
        + apply andb_true_iff in B. rewrite NA in B. split; [intros []|]. tauto.
        + split; [intros [<-|[]]|intros [-> _]; now left]. split; [auto|]. split; [auto|]. intros [Q1 ->]. apply NA in Q1. rewrite Q1 in B. discriminate B. }
    rewrite H. split.
    + intros [Q|[x [Q1 Q2]]]; [exists v; split; [now left|auto]|exists x; split; [now right|auto]].
    + intros [x [[<-|Q1] Q2]]; [auto|right; exists x; auto].
Qed.

Lemma trunk_errors_exact : forall needs after before,
  (trunk_errors needs before after = None <-> exists i, In i after /\ vf_vlan i <> None /\ ~ has_trunk i) /\
  forall e, trunk_errors needs before after = Some e -> forall k, In k e <->
    exists p i v, nth_error after p = Some i /\ k = KUnused (vf_node i) v /\ trunk_has i v /\
      (forall q j, q <> length before + p -> nth_error (before ++ after) q = Some j -> ~ trunk_has j v) /\ ~ (native_is i v /\ needs = true).
Proof.
  intros needs. induction after as [|i after IH]; intros before; cbn [trunk_errors].
  - split; [split; [discriminate|intros [i [[] _]]]|]. intros e H. injection H as <-. intros k. split; [intros []|]. intros [[|p] [i [v [P _]]]]; discriminate P.
  - destruct (IH (before ++ [i])) as [I1 I2]. clear IH.
    assert (SH : forall k, (exists p j v, nth_error after p = Some j /\ k = KUnused (vf_node j) v /\ trunk_has j v /\
        (forall q j0, q <> length (before ++ [i]) + p -> nth_error ((before ++ [i]) ++ after) q = Some j0 -> ~ trunk_has j0 v) /\ ~ (native_is j v /\ needs = true)) <->
      (exists p j v, nth_error (i :: after) (S p) = Some j /\ k = KUnused (vf_node j) v /\ trunk_has j v /\
        (forall q j0, q <> length before + S p -> nth_error (before ++ i :: after) q = Some j0 -> ~ trunk_has j0 v) /\ ~ (native_is j v /\ needs = true))).
    { intros k. rewrite <- app_assoc. cbn [app]. rewrite app_length. cbn [length]. split; intros [p [j [v [P [K [T [F N]]]]]]]; exists p, j, v;
        (split; [exact P|]); (split; [auto|]); (split; [auto|]); (split; [|auto]); intros q j0 Q; apply F; lia. }
    assert (OTH : forall v, (forall j, In j (before ++ after) -> ~ trunk_has j v) <->
       (forall q j, q <> length before + 0 -> nth_error (before ++ i :: after) q = Some j -> ~ trunk_has j v)).
    { intros v. split.
      - intros H q j Q J. apply H. destruct (Nat.lt_ge_cases q (length before)) as [L|L].
        + rewrite nth_error_app1 in J by auto. apply in_or_app. left. eapply nth_error_In. exact J.
        + rewrite nth_error_app2 in J by auto. apply in_or_app. right. destruct (q - length before) as [|z] eqn:Z; [lia|]. cbn in J. eapply nth_error_In. exact J.
      - intros H j J. apply in_app_or in J. destruct J as [J|J]; apply In_nth_error in J; destruct J as [z Z].
        + assert (z < length before) by (apply nth_error_Some; congruence). apply (H z); [lia|]. rewrite nth_error_app1; auto.
        + apply (H (length before + S z)); [lia|]. rewrite nth_error_app2 by lia. replace (length before + S z - length before) with (S z) by lia. exact Z. }
    unfold has_vlan. destruct (vf_vlan i) as [x|] eqn:V.
    + rewrite vattr_raw, V.
      assert (DT : (exists tr, raw (Some x) "trunk" = Some (VDict tr)) \/ (forall tr, raw (Some x) "trunk" <> Some (VDict tr))).
      { destruct (raw (Some x) "trunk") as [[| | | | |tr]|]; try (right; discriminate). left. eauto. }
      destruct DT as [[tr TR]|NT].
      * rewrite TR. assert (HV : forall v, trunk_has i v <-> In v (dkeys tr)).
        { intros v. unfold raw in TR. destruct x as [| | | | |d]; try discriminate TR. split.
          - intros [d' [y [Q [G I]]]]. rewrite V in Q. injection Q as <-. rewrite G in TR. injection TR as <-. exact I.
          - intros I. exists d, tr. auto. }
        assert (HT : has_trunk i). { unfold raw in TR. destruct x as [| | | | |d]; try discriminate TR. exists d, tr. auto. }
        destruct (trunk_errors needs (before ++ [i]) after) as [e2|] eqn:R.
        -- split.
           { split; [discriminate|]. intros [j [[<-|J] [W T]]]; [contradiction|]. assert (Z : Some e2 = None) by (apply I1; exists j; auto). discriminate Z. }
           intros e H. injection H as <-. intros k. rewrite in_app_iff, unused_vlans_In, (I2 e2 eq_refl), SH. split.
           ++ intros [[v [Q1 [Q2 [Q3 Q4]]]]|[p [j [v Q]]]].
              ** exists 0, i, v. split; [auto|]. split; [auto|]. split; [apply HV; auto|]. split; [apply OTH; auto|auto].
              ** exists (S p), j, v. exact Q.
           ++ intros [[|p] [j [v [P [K [T [F N]]]]]]].
              ** cbn in P. injection P as <-. left. exists v. split; [apply HV; auto|]. split; [auto|]. split; [apply OTH; auto|auto].
              ** right. exists p, j, v. auto.
        -- split; [split; [|auto]|discriminate]. intros _. destruct (proj1 I1 eq_refl) as [j [J Q]]. exists j. split; [now right|auto].
      * assert (Z : match raw (Some x) "trunk" with
            | Some (VDict tr) => match trunk_errors needs (before ++ [i]) after with Some e => Some (unused_vlans needs i (before ++ after) (dkeys tr) ++ e) | None => None end
            | _ => None end = None) by (destruct (raw (Some x) "trunk") as [[| | | | |tr]|]; auto; exfalso; apply (NT tr); auto).
        rewrite Z. split; [|discriminate]. split; [intros _|auto]. exists i. split; [now left|]. split; [congruence|].
        intros [d [y [Q G]]]. rewrite V in Q. injection Q as ->. apply (NT y). exact G.
    + split.
      * rewrite I1. split; intros [j [J Q]]; exists j; (split; [|exact Q]); [now right|]. destruct J as [<-|J]; [destruct Q as [Q _]; congruence|auto].
      * intros e H k. rewrite (I2 e H), SH. split.
        -- intros [p [j [v Q]]]. exists (S p), j, v. exact Q.
        -- intros [[|p] [j [v [P [K [T Q]]]]]]; [|exists p, j, v; auto]. cbn in P. injection P as <-. destruct T as [d [y [Z _]]]. congruence.
Qed.

(* C133: the VLANs of a trunk. A fatal error is reported for a VLAN interface without a trunk. *)
Theorem trunk_vlans_exact : forall ifs,
  (validate_trunk ifs = None <-> ~ no_native ifs /\ exists i, In i ifs /\ vf_vlan i <> None /\ ~ has_trunk i) /\
  forall e, validate_trunk ifs = Some e ->
    (In KNoNative e <-> no_native ifs) /\
    (forall n v, In (KUnused n v) e <-> ~ no_native ifs /\ unused ifs n v) /\
    (forall k, In k e -> k = KNoNative \/ exists n v, k = KUnused n v).
Proof.
  intros ifs. unfold validate_trunk. cbv zeta.
  assert (NV : negb (forallb has_vlan ifs) = true <-> exists i, In i ifs /\ vf_vlan i = None).
  { rewrite negb_true_iff. split.
    - intros H. assert (Q : existsb (fun i => negb (has_vlan i)) ifs = true).
      { clear - H. induction ifs as [|i r IH]; [discriminate H|]. cbn [forallb] in H. cbn [existsb]. destruct (has_vlan i); cbn [negb andb orb] in *; auto. }
      apply existsb_exists in Q. destruct Q as [i [I Q]]. exists i. split; [auto|]. unfold has_vlan in Q. destruct (vf_vlan i); [discriminate Q|auto].
    - intros [i [I V]]. destruct (forallb has_vlan ifs) eqn:F; [|auto]. rewrite forallb_forall in F. apply F in I. unfold has_vlan in I. rewrite V in I. discriminate I. }
  assert (HN : existsb (fun i => match vattr_of "native" i with Some _ => true | None => false end) ifs = true <-> exists i, In i ifs /\ has_native i).
  { rewrite existsb_exists. split; intros [i [I H]]; exists i; (split; [auto|]).
    - rewrite vattr_raw in H. unfold raw in H. destruct (vf_vlan i) as [[| | | | |d]|] eqn:V; try discriminate H. destruct (dget "native" d) as [x|] eqn:D; [|discriminate H]. exists d, x. auto.
    - destruct H as [d [x [V D]]]. rewrite vattr_raw, V. cbn [raw]. rewrite D. auto. }
  assert (NN : negb (forallb has_vlan ifs) && negb (existsb (fun i => match vattr_of "native" i with Some _ => true | None => false end) ifs) = true <-> no_native ifs).
  { rewrite andb_true_iff, NV, negb_true_iff. unfold no_native. split; intros [A B]; (split; [auto|]).
    - intros i I H. assert (Q : exists i, In i ifs /\ has_native i) by eauto. apply HN in Q. congruence.
    - destruct (existsb _ ifs) eqn:X; [|auto]. destruct (proj1 HN eq_refl) as [i [I H]]. exfalso. exact (B i I H). }
  destruct (negb (forallb has_vlan ifs) && negb (existsb (fun i => match vattr_of "native" i with Some _ => true | None => false end) ifs)).
  - pose proof (proj1 NN eq_refl) as N. split; [split; [discriminate|tauto]|]. intros e H. injection H as <-. split; [split; [auto|intros _; now left]|]. split.
    + intros n v. split; [intros [Q|[]]; discriminate Q|tauto].
    + intros k [<-|[]]. auto.
  - assert (N : ~ no_native ifs) by (intros Q; apply NN in Q; discriminate Q). destruct (trunk_errors_exact (negb (forallb has_vlan ifs)) ifs []) as [T1 T2].
    split; [rewrite T1; tauto|]. intros e H. specialize (T2 e H). cbn [length app Nat.add] in T2. split; [|split].
    + split; [|contradiction]. intros I. apply T2 in I. destruct I as [p [i [v [_ [Q _]]]]]. discriminate Q.
    + intros n v. rewrite T2. unfold unused. split.
      * intros [p [i [w [P [K [T [F G]]]]]]]. injection K as -> ->. split; [auto|]. exists p, i. split; [auto|]. split; [auto|]. split; [auto|]. split; [auto|].
        rewrite <- NV. exact G.
      * intros [_ [p [i [P [<- [T [F G]]]]]]]. exists p, i, v. rewrite <- NV in G. auto.
    + intros k I. apply T2 in I. destruct I as [p [i [v [_ [Q _]]]]]. right. eauto.
Qed.

(* ---- examples ---- *)

Example vx_rules : (forall w, ~ defined vx_topo w "") /\
  match check_link vx_topo vx_link with
  | (l1, va, ok, _) => ok = true /\ match validate_link va l1 with (r, l2, e) => r = true /\ e = [] /\ vk_ifs l2 = vk_ifs l1 end
  end.
Proof.
  split.
  - intros w [H|[n [nd [_ [H I]]]]]; [cbn in H; intuition discriminate|]. cbn in H.
    repeat match type of H with context [String.eqb ?a ?b] => destruct (String.eqb a b) end; inversion H; subst; cbn in I; intuition discriminate.
  - vm_compute. auto.
Qed.

Definition vx_two (v1 v2 : option val) : vlk := mk_vlk "links[2]" 2 None [] [mk_vif "s1" v1 []; mk_vif "s2" v2 []].
Definition vx_tr (l : list string) (r : list (string * val)) : option val := Some (VDict (("trunk", VList (map VStr l)) :: r)).
Definition vx_errs (l : vlk) : option (list vke) := option_map snd (link_pre_transform (fun l => hd "" l) vx_topo l 5).

Example vx_rule_errors :
  vx_errs (vx_two (vx_tr ["red"] []) (Some (VDict [("access", VStr "red")]))) = Some [KMix] /\
  vx_errs (vx_two (Some (VDict [("native", VStr "red")])) None) = Some [KNative] /\
  vx_errs (vx_two (Some (VDict [("access", VStr "red")])) (Some (VDict [("access", VStr "blue")]))) = Some [KGlobal] /\
  vx_errs (vx_two (vx_tr ["red"] [("native", VStr "blue")]) (vx_tr ["red"] [])) = Some [KNativeTrunk] /\
  vx_errs (vx_two (vx_tr ["red"; "blue"] [("native", VStr "blue")]) (vx_tr ["red"; "blue"] [])) = Some [KIfMissing "s2"] /\
  vx_errs (vx_two (vx_tr ["red"; "blue"] []) (vx_tr ["red"] [])) = Some [KUnused "s1" "blue"].
Proof. vm_compute. repeat split; reflexivity. Qed.

Definition vx_topo2 : vtp :=
  mk_vtp (tv_vlans vx_topo) None [("s1", vx_sw [("green", []); ("gray", [])]); ("s2", vx_sw [("green", []); ("pink", [])])] (tv_skip vx_topo).
Definition vx_errs2 (l : vlk) : option (list vke) := option_map snd (link_pre_transform (fun l => hd "" l) vx_topo2 l 5).

(* Links that break the documented rules are accepted without an error: different native VLANs on the two ends, VLANs
   of two nodes with the same name used as access or trunk VLANs, and different access VLANs. *)
Theorem link_rules_refuted :
  vx_errs2 (vx_two (vx_tr ["red"; "blue"] [("native", VStr "red")]) (vx_tr ["red"; "blue"] [("native", VStr "blue")])) = Some [] /\
  vx_errs2 (vx_two (Some (VDict [("access", VStr "green")])) (Some (VDict [("access", VStr "green")]))) = Some [] /\
  vx_errs2 (vx_two (vx_tr ["green"] []) (vx_tr ["green"] [])) = Some [] /\
  vx_errs2 (vx_two (Some (VDict [("access", VStr "gray")])) (Some (VDict [("access", VStr "pink")]))) = Some [].
Proof. vm_compute. repeat split; reflexivity. Qed.

Print Assumptions link_rules_exact.
Print Assumptions trunk_vlans_exact.
Print Assumptions link_rules_refuted.
