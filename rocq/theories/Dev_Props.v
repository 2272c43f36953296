(* Properties C52-C53: device attributes and device inheritance. *)
From Coq Require Import String ZArith Lia Bool List.
From Verif Require Import Base Box_Model Box_Props Dev_Model.
Import ListNotations.
Open Scope nat_scope.

(* ---------- C53 ---------- *)

(* attr of the device for the provider / of the device itself *)
Definition provider_value (devdata : val) (provider attr : string) (v : val) : Prop :=
  lookup [provider; attr] devdata = Some v.
Definition generic_value (devdata : val) (attr : string) (v : val) : Prop :=
  lookup [attr] devdata = Some v.

Lemma lookup_entries : forall k v x, lookup [k] v = Some x <-> dget k (entries v) = Some x.
Proof.
  intros k v x. destruct v; simpl; try (split; discriminate).
  destruct (dget k d); split; intros H; congruence.
Qed.

Lemma lookup_entries2 : forall a b v x, lookup [a; b] v = Some x <->
  exists y, dget a (entries v) = Some y /\ dget b (entries y) = Some x.
Proof.
  intros a b v x. destruct v; simpl; try (split; [discriminate|intros [y [H _]]; discriminate]).
  destruct (dget a d) as [y|]; [|split; [discriminate|intros [y [H _]]; discriminate]].
  split.
  - intros H. exists y. split; auto. destruct y; try discriminate. simpl.
    destruct (dget b d0); congruence.
  - intros [z [H1 H2]]. injection H1 as <-. destruct y; try discriminate. simpl in H2. rewrite H2. reflexivity.
Qed.

(* C53: a non-dictionary provider value is returned as is; a provider dictionary wins over the
   generic value attribute by attribute, the generic value is used for the rest; the result is
   missing exactly when neither is set. *)
Theorem device_attribute_lookup : forall devdata provider attr,
  let r := get_device_attribute devdata provider attr in
  (forall v, provider_value devdata provider attr v -> is_dict v = false -> r = Some v) /\
  (forall pv gv, provider_value devdata provider attr pv -> is_dict pv = true -> wf pv ->
     generic_value devdata attr gv ->
     exists rv, r = Some rv /\ forall k p x, leaf (k :: p) rv x <->
       leaf (k :: p) pv x \/ (leaf (k :: p) gv x /\ ~ overridden (k :: p) pv)) /\
  (forall pv, provider_value devdata provider attr pv -> (forall gv, ~ generic_value devdata attr gv) -> r = Some pv) /\
  (forall gv, (forall pv, ~ provider_value devdata provider attr pv) -> (r = Some gv <-> generic_value devdata attr gv)) /\
  (r = None <-> (forall pv, ~ provider_value devdata provider attr pv) /\ (forall gv, ~ generic_value devdata attr gv)).
Proof.
  intros devdata provider attr r. unfold provider_value, generic_value.
  assert (Gp : forall v, lookup [provider; attr] devdata = Some v ->
             match dget provider (entries devdata) with Some pd => dget attr (entries pd) | None => None end = Some v).
  { intros v H. apply lookup_entries2 in H. destruct H as [y [H1 H2]]. rewrite H1. auto. }
  assert (Gn : (forall v, lookup [provider; attr] devdata <> Some v) ->
             match dget provider (entries devdata) with Some pd => dget attr (entries pd) | None => None end = None).
  { intros H. destruct (dget provider (entries devdata)) as [pd|] eqn:E; auto.
    destruct (dget attr (entries pd)) as [x|] eqn:E2; auto. exfalso. apply (H x). apply lookup_entries2. eauto. }
  split; [|split; [|split; [|split]]].
  - intros v H D. unfold r, get_device_attribute. rewrite (Gp v H). destruct v; try reflexivity. discriminate.
  - intros pv gv H D W G. unfold r, get_device_attribute. rewrite (Gp pv H). apply lookup_entries in G. rewrite G.
    destruct pv as [| | | | |pd]; try discriminate.
    destruct gv as [| | | | |gd];
      try (eexists; split; [reflexivity|]; intros k p x; split; [auto|];
           intros [K|[[K _] _]]; [auto|simpl in K; discriminate]).
    eexists. split; [reflexivity|]. intros k p x. apply merge_leaves. auto.
  - intros pv H G. unfold r, get_device_attribute. rewrite (Gp pv H).
    destruct (dget attr (entries devdata)) as [gv|] eqn:E; [exfalso; apply (G gv); apply lookup_entries; auto|].
    destruct pv; reflexivity.
  - intros gv H. unfold r, get_device_attribute. rewrite (Gn H). rewrite lookup_entries. tauto.
  - unfold r, get_device_attribute. split.
    + intros H. split.
      * intros pv K. rewrite (Gp pv K) in H. destruct pv; try discriminate.
        destruct (dget attr (entries devdata)) as [[]|]; discriminate.
      * intros gv K. apply lookup_entries in K. rewrite K in H.
        destruct (match dget provider (entries devdata) with Some pd => dget attr (entries pd) | None => None end) as [[]|];
          try discriminate. destruct gv; discriminate.
    + intros [H1 H2]. rewrite (Gn H1).
      destruct (dget attr (entries devdata)) as [gv|] eqn:E; auto. exfalso. apply (H2 gv). apply lookup_entries. auto.
Qed.

Lemma dget_dpop_eq : forall A k k' (d : dict A),
  dget k (dpop k' d) = if String.eqb k k' then None else dget k d.
Proof.
  intros A k k' d. destruct (String.eqb_spec k k') as [E|E].
  - rewrite E. apply dget_dpop_same.
  - apply dget_dpop_other. auto.
Qed.

Lemma lookup_pop : forall q v k p, lookup (k :: p) (pop q v) = if String.eqb k q then None else lookup (k :: p) v.
Proof.
  intros q v k p. destruct v; simpl; try (destruct (String.eqb k q); reflexivity).
  rewrite dget_dpop_eq. destruct (String.eqb k q); auto.
Qed.

Lemma lookup_pops : forall qs v k p,
  lookup (k :: p) (fold_left (fun v q => pop q v) qs v) = if memS k qs then None else lookup (k :: p) v.
Proof.
  induction qs as [|q r IH]; intros v k p; auto.
  cbn [fold_left]. rewrite IH, lookup_pop. unfold memS. cbn [existsb].
  destruct (String.eqb k q), (existsb (String.eqb k) r); reflexivity.
Qed.

(* Consolidated device data: provider settings win over device settings, and no provider
   section is left. *)
Theorem consolidated_device_data : forall dd provider pd providers k p v,
  lookup [provider] (VDict dd) = Some pd -> is_dict pd = true -> wf pd ->
  (leaf (k :: p) (get_consolidated_device_data (VDict dd) provider providers) v <->
   ~ In k providers /\ (leaf (k :: p) pd v \/ (leaf (k :: p) (VDict dd) v /\ ~ overridden (k :: p) pd))).
Proof.
  intros dd provider pd providers k p v L D W. unfold get_consolidated_device_data.
  apply lookup_entries in L. rewrite L. unfold leaf at 1. rewrite lookup_pops.
  pose proof (merge_leaves (VDict dd) pd (k :: p) v W) as M. unfold leaf at 1 in M.
  destruct (memS k providers) eqn:E.
  - apply memS_true in E. split; [intros [C _]; discriminate|]. intros [C _]. contradiction.
  - apply memS_false in E. rewrite M. tauto.
Qed.

Local Open Scope string_scope.
Definition ex_dev : val :=
  VDict [("features", VDict [("bgp", VBool true); ("vlan", VStr "svi")]); ("mtu", VInt 1500%Z);
         ("clab", VDict [("mtu", VInt 9000%Z); ("features", VDict [("vlan", VStr "mixed")]); ("kmods", VList [])])].
Example device_attribute_case :
  get_device_attribute ex_dev "clab" "mtu" = Some (VInt 9000%Z) /\
  get_device_attribute ex_dev "libvirt" "mtu" = Some (VInt 1500%Z) /\
  get_device_attribute ex_dev "clab" "features" = Some (VDict [("bgp", VBool true); ("vlan", VStr "mixed")]) /\
  get_device_attribute ex_dev "clab" "x" = None /\
  get_consolidated_device_data ex_dev "clab" ["clab"; "libvirt"] =
    VDict [("features", VDict [("bgp", VBool true); ("vlan", VStr "mixed")]); ("mtu", VInt 9000%Z); ("kmods", VList [])].
Proof. repeat split; reflexivity. Qed.
Local Close Scope string_scope.

(* ---------- C52: inheritance ---------- *)

(* the value of device d after inheritance, in height steps *)
Inductive inherits (devs : dict val) : nat -> string -> val -> Prop :=
| inh_root : forall d, parent (device d devs) = None -> inherits devs 0 d (device d devs)
| inh_child : forall h d p pv, parent (device d devs) = Some p -> inherits devs h p pv ->
    inherits devs (S h) d (remove_null (merge (pop "template" pv) (pop "parent" (device d devs)))).

Lemma inherits_det : forall devs h d v, inherits devs h d v ->
  forall h' v', inherits devs h' d v' -> h = h' /\ v = v'.
Proof.
  induction 1 as [d P|h d p pv P I IH]; intros h' v' H'; inversion H' as [d' P'|h2 d' p' pv' P' I']; subst; try congruence.
  - auto.
  - assert (p' = p) by congruence. subst p'. destruct (IH _ _ I'). subst. auto.
Qed.

(* ancestors through the parent attribute *)
Inductive anc (devs : dict val) : string -> string -> Prop :=
| anc_self : forall d, anc devs d d
| anc_step : forall d p e, parent (device d devs) = Some p -> anc devs p e -> anc devs d e.

Lemma anc_height : forall devs d e, anc devs d e -> forall h v, inherits devs h d v ->
  exists h' v', inherits devs h' e v' /\ h' <= h.
Proof.
  induction 1 as [d|d p e P A IH]; intros h v H.
  - eauto.
  - inversion H as [d' P'|h2 d' p' pv' P' I']; subst; try congruence.
    assert (p' = p) by congruence. subst p'. destruct (IH _ _ I') as [h' [v' [H1 H2]]]. exists h', v'. split; auto.
Qed.

Lemma device_dset : forall d e v devs, device d (dset e v devs) = if String.eqb d e then v else device d devs.
Proof.
  intros d e v devs. unfold device. destruct (String.eqb_spec d e) as [E|E].
  - rewrite E, dget_dset_same. auto.
  - rewrite dget_dset_other by auto. auto.
Qed.

Lemma entries_pop : forall k v, entries (pop k v) = dpop k (entries v).
Proof. intros k v. destruct v; reflexivity. Qed.

Lemma parent_pop : forall v, parent (pop "parent" v) = None.
Proof. intros v. unfold parent. rewrite entries_pop, dget_dpop_same. reflexivity. Qed.

Lemma parent_pop_other : forall v, parent (pop "template" v) = parent v.
Proof. intros v. unfold parent. rewrite entries_pop, dget_dpop_other by discriminate. reflexivity. Qed.

(* remove_null on dictionaries *)
Fixpoint rn (d : list (string * val)) : list (string * val) :=
  match d with
  | [] => []
  | (k, x) :: r => match x with VNull => rn r | _ => (k, remove_null x) :: rn r end
  end.

Lemma remove_null_dict : forall d, remove_null (VDict d) = VDict (rn d).
Proof. reflexivity. Qed.

Lemma rn_keys : forall d k, In k (dkeys (rn d)) -> In k (dkeys d).
Proof.
  induction d as [|[k x] r IH]; intros k' H; simpl in *; auto.
  assert (Q : In k' (k :: dkeys (rn r)) -> k = k' \/ In k' (dkeys r)) by (intros [K|K]; auto).
  destruct x; simpl in H; auto.
Qed.

Lemma dget_rn : forall d k, NoDup (dkeys d) ->
  dget k (rn d) = match dget k d with Some VNull => None | Some x => Some (remove_null x) | None => None end.
Proof.
  induction d as [|[k x] r IH]; intros k' N; simpl; auto. inversion N as [|? ? N1 N2]; subst.
  destruct (String.eqb_spec k' k) as [E|E].
  - subst k'. destruct x; simpl; rewrite ?String.eqb_refl; auto.
    apply dget_None. intros K. apply N1. apply rn_keys. auto.
  - destruct x; simpl; rewrite ?(proj2 (String.eqb_neq k' k) E); auto.
Qed.

Lemma rn_NoDup : forall d, NoDup (dkeys d) -> NoDup (dkeys (rn d)).
Proof.
  induction d as [|[k x] r IH]; intros N; simpl; auto. inversion N as [|? ? N1 N2]; subst.
  assert (Q : NoDup (k :: dkeys (rn r))) by (constructor; auto; intros K; apply N1; apply rn_keys; auto).
  destruct x; simpl; auto.
Qed.

Lemma remove_null_wf : forall v, wf v -> wf (remove_null v).
Proof.
  induction v as [v Hv|d IH] using val_ind2; intros W.
  - destruct v; auto; try discriminate.
  - rewrite remove_null_dict. apply wf_VDict in W. destruct W as [N W]. apply wf_VDict. split.
    + apply rn_NoDup. auto.
    + intros k v H. revert IH W H. clear. induction d as [|[k0 x] r IHr]; intros IH W H; [contradiction|].
      simpl in H.
      assert (Q : In (k, v) ((k0, remove_null x) :: rn r) -> wf v).
      { intros [E|H']; [injection E as <- <-; apply (IH k0); [left; auto|apply (W k0); left; auto]|].
        apply IHr; auto; [intros; eapply IH; eauto; right; eauto|intros; eapply W; right; eauto]. }
      destruct x; try (apply Q; auto; fail). apply IHr; auto; [intros; eapply IH; eauto; right; eauto|intros; eapply W; right; eauto].
Qed.

(* leaves after removal of nulls are the non-null leaves *)
Lemma remove_null_leaves : forall t p v, wf t -> is_dict t = true ->
  (leaf p (remove_null t) v <-> leaf p t v /\ v <> VNull).
Proof.
  induction t as [t Ht|d IH] using val_ind2; intros p v W D; [congruence|].
  rewrite remove_null_dict. destruct p as [|k p].
  - unfold leaf. simpl. split; [intros [H1 H2]|intros [[H1 H2] _]]; injection H1 as <-; discriminate.
  - unfold leaf. simpl lookup. apply wf_VDict in W. destruct W as [N W]. rewrite dget_rn by auto.
    destruct (dget k d) as [x|] eqn:E; [|split; [intros [C _]; discriminate|intros [[C _] _]; discriminate]].
    assert (In (k, x) d) as Hin by (apply dget_In; auto).
    destruct (is_dict x) eqn:Dx.
    + destruct x; try discriminate. apply (IH k _ Hin p v (W k _ Hin) Dx).
    + destruct x; try discriminate; destruct p as [|k' p]; simpl;
        (split; [intros [C1 C2]; try discriminate; injection C1 as <-; repeat split; congruence
                |intros [[C1 C2] C3]; try discriminate; injection C1 as <-; try congruence; auto]).
Qed.

Lemma is_dict_remove_null : forall v, is_dict (remove_null v) = is_dict v.
Proof. destruct v; reflexivity. Qed.

Lemma dget_entries_merge : forall a b k, wf b -> is_dict b = true ->
  dget k (entries (merge a b)) = match a with
                                 | VDict da => mopt (dget k da) (dget k (entries b))
                                 | _ => dget k (entries b)
                                 end.
Proof.
  intros a b k W D. destruct b; try discriminate. destruct a; auto.
  rewrite merge_dicts. simpl entries. apply dget_mdict. apply wf_VDict in W. apply W.
Qed.

(* the parent of a device, if set, is the name of a device *)
Definition good_parent (v : val) : Prop :=
  forall x, dget "parent"%string (entries v) = Some x -> exists p, x = VStr p.

(* all devices are dictionaries with unique keys *)
Definition good_val (v : val) : Prop := is_dict v = true /\ wf v /\ good_parent v.
Definition good_devices (devs : dict val) : Prop := forall d v, dget d devs = Some v -> good_val v.

Lemma good_empty : good_val empty_box.
Proof. split; [reflexivity|]. split; [simpl; split; auto; constructor|]. intros x H. discriminate. Qed.

Lemma good_device : forall devs d, good_devices devs -> good_val (device d devs).
Proof.
  intros devs d G. unfold device. destruct (dget d devs) eqn:E; eauto. apply good_empty.
Qed.

Lemma good_dset : forall devs d v, good_devices devs -> good_val v -> good_devices (dset d v devs).
Proof.
  intros devs d v G D e x H. destruct (String.eqb_spec e d) as [E|E].
  - rewrite E, dget_dset_same in H. injection H as <-. auto.
  - rewrite dget_dset_other in H by auto. eauto.
Qed.

Lemma good_no_parent : forall v, good_val v -> parent v = None -> dget "parent"%string (entries v) = None.
Proof.
  intros v [_ [_ G]] P. unfold parent in P. destruct (dget "parent" (entries v)) as [x|] eqn:E; auto.
  destruct (G x E) as [p ->]. discriminate.
Qed.

Lemma pop_dict : forall k v, is_dict (pop k v) = is_dict v.
Proof. destruct v; reflexivity. Qed.

Lemma NoDup_dpop : forall (d : dict val) k, NoDup (dkeys d) -> NoDup (dkeys (dpop k d)).
Proof.
  induction d as [|[k0 x] r IH]; intros k N; simpl; auto. inversion N as [|? ? N1 N2]; subst.
  destruct (String.eqb k k0); simpl; auto. constructor; auto.
  intros K. apply N1. clear -K. induction r as [|[k1 y] r IHr]; simpl in *; auto.
  destruct (String.eqb k k1); simpl in K; auto. destruct K; auto.
Qed.

Lemma pop_wf : forall k v, wf v -> wf (pop k v).
Proof.
  intros k v W. destruct v; auto. simpl pop. apply wf_VDict in W. destruct W as [N W]. apply wf_VDict. split.
  - apply NoDup_dpop. auto.
  - intros k' v H. apply (W k'). clear -H. induction d as [|[k0 x] r IH]; simpl in *; auto.
    destruct (String.eqb k k0); simpl in *; auto. destruct H; auto.
Qed.

Lemma no_parent_good : forall v, dget "parent"%string (entries v) = None -> parent v = None.
Proof. intros v H. unfold parent. rewrite H. auto. Qed.

(* a merge of parentless devices is a parentless device *)
Lemma good_merge : forall a b, good_val a -> good_val b -> parent a = None -> parent b = None ->
  good_val (remove_null (merge (pop "template" a) b)) /\ parent (remove_null (merge (pop "template" a) b)) = None.
Proof.
  intros a b Ga Gb Pa Pb. pose proof (good_no_parent a Ga Pa) as Na. pose proof (good_no_parent b Gb Pb) as Nb.
  destruct Ga as [Da [Wa _]], Gb as [Db [Wb _]].
  pose proof (pop_wf "template" a Wa) as Wp.
  assert (K : dget "parent"%string (entries (remove_null (merge (pop "template" a) b))) = None).
  { destruct a as [| | | | |da]; try discriminate. destruct b as [| | | | |db]; try discriminate.
    simpl pop in *. rewrite merge_dicts, remove_null_dict. simpl entries in *. rewrite dget_rn.
    - rewrite dget_mdict by (apply wf_VDict in Wb; apply Wb). rewrite dget_dpop_other by discriminate. rewrite Na, Nb. reflexivity.
    - apply NoDup_mdict; [apply wf_VDict in Wp; apply Wp|apply wf_VDict in Wb; apply Wb]. }
  split; [|apply no_parent_good; auto]. split; [|split].
  - rewrite is_dict_remove_null. destruct b; try discriminate. destruct a; try discriminate. reflexivity.
  - apply remove_null_wf. apply merge_wf; auto.
  - intros x H. congruence.
Qed.

Lemma good_pop_parent : forall v, good_val v -> good_val (pop "parent" v).
Proof.
  intros v [D [W G]]. split; [rewrite pop_dict; auto|]. split; [apply pop_wf; auto|].
  intros x H. rewrite entries_pop, dget_dpop_same in H. discriminate.
Qed.

Lemma inherits_good : forall devs h d v, good_devices devs -> inherits devs h d v -> good_val v /\ parent v = None.
Proof.
  intros devs h d v G. induction 1 as [d P|h d p pv P I [IH1 IH2]].
  - split; auto. apply good_device. auto.
  - apply good_merge; auto; [|apply parent_pop]. apply good_pop_parent. apply good_device. auto.
Qed.

(* the first statement of process_child *)
Definition touch (d : string) (devs : dict val) : dict val :=
  match dget d devs with Some _ => devs | None => dset d empty_box devs end.

Lemma device_touch : forall d e devs, device e (touch d devs) = device e devs.
Proof.
  intros d e devs. unfold touch. destruct (dget d devs) eqn:E; auto. rewrite device_dset.
  destruct (String.eqb_spec e d) as [Ed|Ed]; auto. subst e. unfold device. rewrite E. auto.
Qed.

Lemma good_touch : forall d devs, good_devices devs -> good_devices (touch d devs).
Proof. intros d devs G. unfold touch. destruct (dget d devs); auto. apply good_dset; auto. apply good_empty. Qed.

Lemma process_child_eq : forall fuel d devs,
  process_child fuel d devs =
  match parent (device d devs) with
  | None => Some (touch d devs)
  | Some p =>
      match fuel with
      | O => None
      | S f =>
          match process_child f p (dset d (pop "parent" (device d devs)) (touch d devs)) with
          | None => None
          | Some devs' => Some (dset d (remove_null (merge (pop "template" (device p devs')) (device d devs'))) devs')
          end
      end
  end.
Proof.
  intros fuel d devs.
  destruct fuel; simpl; fold (touch d devs); rewrite device_touch; reflexivity.
Qed.

Section Inheritance.
  Variable devs0 : dict val.
  Hypothesis G0 : good_devices devs0.

  (* parents only disappear *)
  Definition reachable (cur : dict val) : Prop :=
    good_devices cur /\ forall e q, parent (device e cur) = Some q -> parent (device e devs0) = Some q.

  Lemma process_frame : forall fuel d cur cur', reachable cur -> process_child fuel d cur = Some cur' ->
    reachable cur' /\ parent (device d cur') = None /\
    (forall e, anc devs0 d e \/ device e cur' = device e cur) /\
    (forall e, parent (device e cur) = None -> parent (device e cur') = None) /\
    (forall e k p v, k <> "parent"%string -> v <> VNull -> leaf (k :: p) (device e cur) v ->
       leaf (k :: p) (device e cur') v) /\
    (forall e, In e (dkeys cur) -> In e (dkeys cur')).
  Proof.
    induction fuel as [|fuel IH]; intros d cur cur' [Gc Sub] H; rewrite process_child_eq in H;
      destruct (parent (device d cur)) as [p|] eqn:P; try discriminate.
    - injection H as <-. split; [|split; [|split; [|split; [|split]]]].
      + split; [apply good_touch; auto|]. intros e q. rewrite device_touch. auto.
      + rewrite device_touch. auto.
      + intros e. right. apply device_touch.
      + intros e. rewrite device_touch. auto.
      + intros e k p v _ _. rewrite device_touch. auto.
      + intros e K. unfold touch. destruct (dget d cur) eqn:E; auto. rewrite dkeys_dset_new; [apply in_app_iff; auto|].
        apply dget_None. auto.
    - set (cur1 := dset d (pop "parent" (device d cur)) (touch d cur)) in *.
      destruct (process_child fuel p cur1) as [cur2|] eqn:R; [|discriminate]. injection H as <-.
      assert (D1 : forall e, device e cur1 = if String.eqb e d then pop "parent" (device d cur) else device e cur).
      { intros e. unfold cur1. rewrite device_dset. destruct (String.eqb e d); auto. apply device_touch. }
      assert (R1 : reachable cur1).
      { split.
        - unfold cur1. apply good_dset; [apply good_touch; auto|]. apply good_pop_parent. apply good_device. auto.
        - intros e q. rewrite D1. destruct (String.eqb e d); [rewrite parent_pop; discriminate|auto]. }
      destruct (IH p cur1 cur2 R1 R) as [[G2 S2] [P2 [F2 [M2 [L2 K2]]]]].
      assert (Pd : parent (device d cur2) = None).
      { apply M2. rewrite D1, String.eqb_refl. apply parent_pop. }
      destruct (good_merge (device p cur2) (device d cur2)) as [Gm Pm]; auto; try (apply good_device; auto).
      split; [|split; [|split; [|split; [|split]]]].
      + split; [apply good_dset; auto|]. intros e q. rewrite device_dset.
        destruct (String.eqb e d); [rewrite Pm; discriminate|auto].
      + rewrite device_dset, String.eqb_refl. auto.
      + intros e. rewrite device_dset. destruct (String.eqb_spec e d) as [E|E]; [left; subst; apply anc_self|].
        destruct (F2 e) as [A|A].
        * left. eapply anc_step; [|exact A]. apply Sub. auto.
        * right. rewrite A, D1. destruct (String.eqb_spec e d); [congruence|auto].
      + intros e K. rewrite device_dset. destruct (String.eqb_spec e d) as [E|E]; auto.
        apply M2. rewrite D1. destruct (String.eqb_spec e d); [congruence|auto].
      + intros e k q v Hk Hv L. rewrite device_dset. destruct (String.eqb_spec e d) as [E|E].
        * subst e. destruct (good_device cur2 d G2) as [Dd [Wd _]]. destruct (good_device cur2 p G2) as [Dp [Wp _]].
          apply remove_null_leaves.
          -- apply merge_wf; auto. apply pop_wf; auto.
          -- destruct (device d cur2); try discriminate. destruct (device p cur2); try discriminate. reflexivity.
          -- split; auto. apply merge_leaves; auto. left. apply L2; auto. rewrite D1, String.eqb_refl.
             destruct L as [L1 L3]. split; auto. rewrite lookup_pop. destruct (String.eqb_spec k "parent"); [congruence|auto].
        * apply L2; auto. rewrite D1. destruct (String.eqb_spec e d); [congruence|auto].
      + intros e K. assert (K1 : In e (dkeys cur1)).
        { assert (Kt : In e (dkeys (touch d cur))).
          { unfold touch. destruct (dget d cur) eqn:E; auto. rewrite dkeys_dset_new; [apply in_app_iff; auto|]. apply dget_None. auto. }
          unfold cur1. destruct (in_dec string_dec d (dkeys (touch d cur))).
          - rewrite dkeys_dset_mem; auto.
          - rewrite dkeys_dset_new; auto. apply in_app_iff; auto. }
        apply K2 in K1. destruct (in_dec string_dec d (dkeys cur2)).
        * rewrite dkeys_dset_mem; auto.
        * rewrite dkeys_dset_new; auto. apply in_app_iff; auto.
    - injection H as <-. split; [|split; [|split; [|split; [|split]]]].
      + split; [apply good_touch; auto|]. intros e q. rewrite device_touch. auto.
      + rewrite device_touch. auto.
      + intros e. right. apply device_touch.
      + intros e. rewrite device_touch. auto.
      + intros e k p v _ _. rewrite device_touch. auto.
      + intros e K. unfold touch. destruct (dget d cur) eqn:E; auto. rewrite dkeys_dset_new; [apply in_app_iff; auto|].
        apply dget_None. auto.
  Qed.

  (* number of devices that still have a parent *)
  Definition with_parent (cur : dict val) : list string :=
    filter (fun e => match parent (device e cur) with Some _ => true | None => false end) (dkeys devs0).

  Lemma filter_mono : forall (f g : string -> bool) l, (forall x, g x = true -> f x = true) ->
    length (filter g l) <= length (filter f l).
  Proof.
    induction l as [|x r IH]; intros H; simpl; auto. specialize (IH H).
    destruct (g x) eqn:E; [rewrite (H x E); simpl; lia|]. destruct (f x); simpl; lia.
  Qed.

  Lemma filter_strict : forall (f g : string -> bool) l y, (forall x, g x = true -> f x = true) ->
    In y l -> f y = true -> g y = false -> length (filter g l) < length (filter f l).
  Proof.
    induction l as [|x r IH]; intros y H I Fy Gy; simpl; [contradiction|].
    pose proof (filter_mono f g r H) as M. destruct I as [->|I].
    - rewrite Fy, Gy. simpl. lia.
    - specialize (IH y H I Fy Gy). destruct (g x) eqn:E; [rewrite (H x E); simpl; lia|]. destruct (f x); simpl; lia.
  Qed.

  Lemma process_total : forall fuel d cur, reachable cur -> length (with_parent cur) <= fuel ->
    process_child fuel d cur <> None.
  Proof.
    induction fuel as [|fuel IH]; intros d cur R L H; rewrite process_child_eq in H;
      destruct (parent (device d cur)) as [p|] eqn:P; try discriminate.
    - destruct R as [_ Sub]. specialize (Sub d p P).
      assert (K : In d (with_parent cur)).
      { unfold with_parent. apply filter_In. rewrite P. split; auto.
        unfold device in Sub. destruct (dget d devs0) eqn:E; [eapply dget_Some_key; eauto|discriminate]. }
      destruct (with_parent cur); simpl in *; [contradiction|lia].
    - set (cur1 := dset d (pop "parent" (device d cur)) (touch d cur)) in *.
      assert (D1 : forall e, device e cur1 = if String.eqb e d then pop "parent" (device d cur) else device e cur).
      { intros e. unfold cur1. rewrite device_dset. destruct (String.eqb e d); auto. apply device_touch. }
      assert (R1 : reachable cur1).
      { destruct R as [Gc Sub]. split.
        - unfold cur1. apply good_dset; [apply good_touch; auto|]. apply good_pop_parent. apply good_device. auto.
        - intros e q. rewrite D1. destruct (String.eqb e d); [rewrite parent_pop; discriminate|auto]. }
      assert (L1 : length (with_parent cur1) < length (with_parent cur)).
      { apply (filter_strict _ _ _ d).
        - intros x. rewrite D1. destruct (String.eqb_spec x d); [rewrite parent_pop; discriminate|auto].
        - destruct R as [_ Sub]. specialize (Sub d p P). unfold device in Sub.
          destruct (dget d devs0) eqn:E; [eapply dget_Some_key; eauto|discriminate].
        - rewrite P. auto.
        - rewrite D1, String.eqb_refl, parent_pop. auto. }
      destruct (process_child fuel p cur1) eqn:Q; [discriminate|]. apply (IH p cur1 R1); auto. lia.
  Qed.

  Lemma not_anc_parent : forall h d v p, inherits devs0 h d v -> parent (device d devs0) = Some p -> ~ anc devs0 p d.
  Proof.
    intros h d v p I P A. inversion I as [d' P'|h2 d' p' pv' P' I']; subst; try congruence.
    assert (p' = p) by congruence. subst p'.
    destruct (anc_height _ _ _ A _ _ I') as [h' [v' [H1 H2]]].
    destruct (inherits_det _ _ _ _ I _ _ H1) as [E _]. lia.
  Qed.

  Lemma process_inherits : forall h d v, inherits devs0 h d v ->
    forall fuel cur cur', reachable cur ->
    (forall e h' w, anc devs0 d e -> inherits devs0 h' e w -> device e cur = device e devs0 \/ device e cur = w) ->
    process_child fuel d cur = Some cur' ->
    device d cur' = v /\
    (forall e h' w, anc devs0 d e -> inherits devs0 h' e w -> device e cur' = device e cur \/ device e cur' = w).
  Proof.
    induction 1 as [d P|h d p pv P I IH]; intros fuel cur cur' R O H.
    - assert (Pc : parent (device d cur) = None).
      { destruct (parent (device d cur)) eqn:E; auto. apply R in E. congruence. }
      rewrite process_child_eq, Pc in H. injection H as <-. split.
      + rewrite device_touch. destruct (O d 0 (device d devs0) (anc_self _ _)); auto. apply inh_root. auto.
      + intros e h' w _ _. left. apply device_touch.
    - pose proof (inh_child devs0 h d p pv P I) as Id.
      rewrite process_child_eq in H.
      destruct (O d _ _ (anc_self _ _) Id) as [E|E].
      + rewrite E, P in H. destruct fuel as [|fuel]; [discriminate|].
        set (cur1 := dset d (pop "parent" (device d devs0)) (touch d cur)) in *.
        destruct (process_child fuel p cur1) as [cur2|] eqn:Q; [|discriminate]. injection H as <-.
        assert (D1 : forall e, device e cur1 = if String.eqb e d then pop "parent" (device d devs0) else device e cur).
        { intros e. unfold cur1. rewrite device_dset. destruct (String.eqb e d); auto. apply device_touch. }
        assert (R1 : reachable cur1).
        { destruct R as [Gc Sub]. split.
          - unfold cur1. apply good_dset; [apply good_touch; auto|]. apply good_pop_parent. apply good_device. auto.
          - intros e q. rewrite D1. destruct (String.eqb e d); [rewrite parent_pop; discriminate|auto]. }
        pose proof (not_anc_parent _ _ _ _ Id P) as Na.
        assert (Ne : forall e, anc devs0 p e -> e <> d) by (intros e A K; subst; contradiction).
        destruct (IH fuel cur1 cur2 R1) as [V2 O2]; auto.
        { intros e h' w A Ie. rewrite D1. destruct (String.eqb_spec e d) as [Ed|Ed]; [exfalso; exact (Ne e A Ed)|].
          apply (O e h' w); auto. eapply anc_step; eauto. }
        destruct (process_frame _ _ _ _ R1 Q) as [_ [_ [F2 _]]].
        assert (Vd : device d cur2 = pop "parent" (device d devs0)).
        { destruct (F2 d) as [A|A]; [contradiction|]. rewrite A, D1, String.eqb_refl. auto. }
        split.
        * rewrite device_dset, String.eqb_refl, V2, Vd. auto.
        * intros e h' w A Ie. rewrite device_dset. destruct (String.eqb_spec e d) as [Ed|Ed].
          -- right. subst e. rewrite V2, Vd. apply (inherits_det _ _ _ _ Id _ _ Ie).
          -- inversion A as [|d' p' e' P' A']; subst; [congruence|].
             assert (p' = p) by congruence. subst p'.
             destruct (O2 e h' w A' Ie) as [K|K]; auto. left. rewrite K, D1.
             destruct (String.eqb_spec e d); [congruence|auto].
      + rewrite E in H. destruct (inherits_good _ _ _ _ G0 Id) as [_ Pv]. rewrite Pv in H. injection H as <-. split.
        * rewrite device_touch. auto.
        * intros e h' w _ _. left. apply device_touch.
  Qed.

  Lemma anc_inherits : forall d e, anc devs0 d e -> forall h w, inherits devs0 h e w ->
    exists h' v, inherits devs0 h' d v.
  Proof.
    induction 1 as [d|d p e P A IH]; intros h w I; eauto.
    destruct (IH _ _ I) as [h' [v Iv]]. eexists. eexists. eapply inh_child; eauto.
  Qed.

  Lemma process_all_spec : forall fuel names cur, reachable cur -> length (with_parent cur) <= fuel ->
    (forall e h w, inherits devs0 h e w -> device e cur = device e devs0 \/ device e cur = w) ->
    exists cur', process_all fuel names cur = Some cur' /\
      (forall e h w, inherits devs0 h e w -> device e cur' = device e devs0 \/ device e cur' = w) /\
      (forall e h w, inherits devs0 h e w -> In e names \/ device e cur = w -> device e cur' = w) /\
      (forall e k p v, k <> "parent"%string -> v <> VNull -> leaf (k :: p) (device e cur) v ->
         leaf (k :: p) (device e cur') v) /\
      (forall e, In e (dkeys cur) -> In e (dkeys cur')).
  Proof.
    intros fuel. induction names as [|d r IH]; intros cur R L O; simpl.
    - exists cur. split; auto. split; auto. split; [|split; auto]. intros e h w I [[]|K]; auto.
    - destruct (process_child fuel d cur) as [cur1|] eqn:P; [|exfalso; exact (process_total _ _ _ R L P)].
      destruct (process_frame _ _ _ _ R P) as [R1 [_ [F [M [Lf Kk]]]]].
      assert (St : forall e h w, inherits devs0 h e w ->
                 (device e cur1 = device e cur \/ device e cur1 = w) /\ (e = d -> device e cur1 = w)).
      { intros e h w I. destruct (F e) as [A|A].
        - destruct (anc_inherits _ _ A _ _ I) as [h' [v Iv]].
          destruct (process_inherits _ _ _ Iv _ _ _ R (fun e h' w _ I => O e h' w I) P) as [V St].
          split; [apply (St _ _ _ A I)|]. intros ->. rewrite V. apply (inherits_det _ _ _ _ Iv _ _ I).
        - split; auto. intros ->.
          destruct (process_inherits _ _ _ I _ _ _ R (fun e h' w _ I => O e h' w I) P) as [V _]. auto. }
      assert (L1 : length (with_parent cur1) <= fuel).
      { etransitivity; [|exact L]. apply filter_mono. intros x. destruct (parent (device x cur)) eqn:E; auto.
        rewrite (M x E). auto. }
      destruct (IH cur1 R1 L1) as [cur2 [E2 [O2 [V2 [Lf2 K2]]]]].
      { intros e h w I. destruct (St e h w I) as [[K|K] _]; auto. rewrite K. eauto. }
      exists cur2. split; auto. split; auto. split; [|split].
      + intros e h w I [[K|K]|K].
        * apply (V2 e h w I). right. apply (St e h w I). auto.
        * apply (V2 e h w I). auto.
        * apply (V2 e h w I). right. destruct (St e h w I) as [[Q|Q] _]; congruence.
      + intros e k p v Hk Hv Hl. apply Lf2; auto.
      + auto.
  Qed.

  Lemma with_parent_le : forall cur, length (with_parent cur) <= length devs0.
  Proof.
    intros cur. unfold with_parent. rewrite <- (map_length fst devs0). unfold dkeys.
    generalize (map fst devs0). intros l. induction l as [|x r IH]; simpl; auto.
    destruct (parent (device x cur)); simpl; lia.
  Qed.
End Inheritance.

(* C52: device inheritance never runs out of recursion, whatever the parent
   relation looks like; *)
Theorem device_inheritance_ends : forall devs, good_devices devs ->
  exists final, process_device_inheritance devs = Some final /\ (forall d, In d (dkeys devs) -> In d (dkeys final)).
Proof.
  intros devs G. destruct (process_all_spec devs G (length devs) (dkeys devs) devs) as [f [E [_ [_ [_ K]]]]].
  - split; auto.
  - apply with_parent_le.
  - auto.
  - exists f. auto.
Qed.

(* ... a device whose chain of parents ends gets exactly the values inherited
   along that chain (children override their parent, templates of the parent
   are not inherited, nulls are removed), whatever order the devices are
   listed in; *)
Theorem device_inheritance_exact : forall devs final h d v, good_devices devs ->
  process_device_inheritance devs = Some final -> In d (dkeys devs) -> inherits devs h d v ->
  device d final = v.
Proof.
  intros devs final h d v G E I H.
  destruct (process_all_spec devs G (length devs) (dkeys devs) devs) as [f [E' [_ [V _]]]].
  - split; auto.
  - apply with_parent_le.
  - auto.
  - unfold process_device_inheritance in E. rewrite E in E'. injection E' as <-. eauto.
Qed.

(* ... and no device loses or changes an attribute it sets itself, not even
   when the parents are circular. *)
Theorem device_settings_kept : forall devs final d k p v, good_devices devs ->
  process_device_inheritance devs = Some final ->
  k <> "parent"%string -> v <> VNull -> leaf (k :: p) (device d devs) v -> leaf (k :: p) (device d final) v.
Proof.
  intros devs final d k p v G E Hk Hv L.
  destruct (process_all_spec devs G (length devs) (dkeys devs) devs) as [f [E' [_ [_ [Lf _]]]]].
  - split; auto.
  - apply with_parent_le.
  - auto.
  - unfold process_device_inheritance in E. rewrite E in E'. injection E' as <-. eauto.
Qed.

(* what inheritance means for the attributes of one device: its own non-null
   attributes, and for the paths where it says nothing, the attributes of the
   parent (except the template) *)
Theorem inherited_attribute : forall devs h d p pv k q x, good_devices devs ->
  parent (device d devs) = Some p -> inherits devs h p pv ->
  k <> "parent"%string ->
  (leaf (k :: q) (remove_null (merge (pop "template" pv) (pop "parent" (device d devs)))) x <->
   x <> VNull /\ (leaf (k :: q) (device d devs) x \/
                  (k <> "template"%string /\ leaf (k :: q) pv x /\ ~ overridden (k :: q) (pop "parent" (device d devs))))).
Proof.
  intros devs h d p pv k q x G P I Hk.
  destruct (inherits_good _ _ _ _ G I) as [[Dp [Wp _]] _]. destruct (good_device devs d G) as [Dd [Wd _]].
  assert (Wm : wf (merge (pop "template" pv) (pop "parent" (device d devs)))) by (apply merge_wf; apply pop_wf; auto).
  rewrite remove_null_leaves; auto.
  2: { destruct (device d devs); try discriminate. destruct pv; try discriminate. reflexivity. }
  rewrite merge_leaves by (try (apply pop_wf; auto); rewrite pop_dict; auto).
  assert (L1 : leaf (k :: q) (pop "parent" (device d devs)) x <-> leaf (k :: q) (device d devs) x).
  { unfold leaf. rewrite lookup_pop. destruct (String.eqb_spec k "parent"); [congruence|]. tauto. }
  assert (L2 : leaf (k :: q) (pop "template" pv) x <-> k <> "template"%string /\ leaf (k :: q) pv x).
  { unfold leaf. rewrite lookup_pop. destruct (String.eqb_spec k "template"); [|tauto].
    split; [intros [C _]; discriminate|intros [C _]; congruence]. }
  rewrite L1, L2. tauto.
Qed.

(* a chain of devices listed child first, a parent that is not defined, and a loop *)
Example device_inheritance_case :
  let devs := [ ("c", VDict [("parent", VStr "b"); ("x", VInt 1); ("y", VNull)]);
                ("b", VDict [("parent", VStr "a"); ("y", VInt 2); ("d", VDict [("p", VInt 5)])]);
                ("a", VDict [("template", VBool true); ("x", VInt 3); ("z", VInt 4); ("d", VDict [("p", VInt 6); ("q", VInt 7)])]);
                ("u", VDict [("parent", VStr "none"); ("x", VInt 9)]);
                ("l", VDict [("parent", VStr "m"); ("x", VInt 10)]);
                ("m", VDict [("parent", VStr "l"); ("w", VInt 11)]) ]%string in
  good_devices devs /\
  process_device_inheritance devs =
  Some [ ("c", VDict [("x", VInt 1); ("z", VInt 4); ("d", VDict [("p", VInt 5); ("q", VInt 7)])]);
         ("b", VDict [("x", VInt 3); ("z", VInt 4); ("d", VDict [("p", VInt 5); ("q", VInt 7)]); ("y", VInt 2)]);
         ("a", VDict [("template", VBool true); ("x", VInt 3); ("z", VInt 4); ("d", VDict [("p", VInt 6); ("q", VInt 7)])]);
         ("u", VDict [("x", VInt 9)]);
         ("l", VDict [("x", VInt 10); ("w", VInt 11)]);
         ("m", VDict [("x", VInt 10); ("w", VInt 11)]);
         ("none", VDict []) ]%string.
Proof.
  intros devs. split; [|vm_compute; reflexivity].
  intros d v H. unfold devs in H. simpl in H.
  repeat match type of H with
  | (if ?c then _ else _) = _ => destruct c
  end; try discriminate; injection H as <-;
    (split; [reflexivity|]; split;
     [simpl; repeat split; repeat constructor; simpl; intuition discriminate
     |intros x Hx; simpl in Hx; try discriminate; try (injection Hx as <-; eauto)]).
Qed.

Print Assumptions device_attribute_lookup.
Print Assumptions consolidated_device_data.
Print Assumptions device_inheritance_ends.
Print Assumptions device_inheritance_exact.
Print Assumptions device_settings_kept.
Print Assumptions inherited_attribute.
