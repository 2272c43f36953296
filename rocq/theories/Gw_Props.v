(* Properties C81-C84: first-hop gateways. *)
From Coq Require Import String ZArith Lia Bool List.
From Verif Require Import Base Box_Model Box_Props IdAlloc_Model IdAlloc_Props Gw_Model.
Import ListNotations.
Local Open Scope string_scope.
Local Open Scope list_scope.

(* ------------------------------------------------------------------ *)
(* Specification                                                        *)

(* a gateway attribute accepted by the validation: missing, a flag or a dictionary with unique keys *)
Definition gw_valid (o : option val) : Prop :=
  match o with
  | None => True
  | Some (VBool _) => True
  | Some (VDict d) => wf (VDict d)
  | Some _ => False
  end.

(* a gateway is wanted on interface [i] of a link with gateway attribute [lg]: not when it is switched off on the link
   or on the interface; when the link says nothing, only when the interface asks for it *)
Definition wanted (lg : option val) (i : gwi) : Prop :=
  match lg with
  | Some (VBool false) => False
  | Some _ => gi_gw i <> Some (VBool false)
  | None => exists v, gi_gw i = Some v /\ v <> VBool false
  end.

(* parameters given in a gateway attribute *)
Definition own (o : option val) : val := match o with Some (VDict d) => VDict d | _ => VDict [] end.

(* a path below a gateway that is not an address *)
Definition not_address (p : list string) : Prop := match p with [] => False | k :: _ => ~ In k ["ipv4"; "ipv6"] end.

(* a value taken from the first of the trees that says something about the path *)
Fixpoint first_leaf (ts : list val) (p : list string) (x : val) : Prop :=
  match ts with
  | [] => False
  | t :: r => leaf p t x \/ (~ overridden p t /\ first_leaf r p x)
  end.

(* ------------------------------------------------------------------ *)

Lemma F2_ext_gw : forall A B (R S : A -> B -> Prop) l l',
  (forall a b, In a l -> R a b -> S a b) -> Forall2 R l l' -> Forall2 S l l'.
Proof.
  intros A B R S l l' H F. induction F as [|a b l l' Hr F IH]; constructor.
  - apply H; [left; auto|auto].
  - apply IH. intros a' b' Ha. apply H. right; auto.
Qed.

Lemma F2_map_id : forall A B (f : A -> B) l, Forall2 (fun a b => b = f a) l (map f l).
Proof. induction l; simpl; constructor; auto. Qed.

Lemma F2_comp : forall A B C (R : A -> B -> Prop) (S : B -> C -> Prop) l m n,
  Forall2 R l m -> Forall2 S m n -> Forall2 (fun a c => exists b, R a b /\ S b c) l n.
Proof.
  intros A B C R S l m n H. revert n. induction H as [|a b l m Hab H IH]; intros n Hn; inversion Hn; subst; constructor; eauto.
Qed.

Lemma gw_all_F2 : forall A B (f : A -> option B) l r, gw_all f l = Some r -> Forall2 (fun a b => f a = Some b) l r.
Proof.
  induction l as [|a l IH]; simpl; intros r H.
  - inversion H. constructor.
  - destruct (f a) as [b|] eqn:E; [|discriminate]. destruct (gw_all f l) as [r'|]; [|discriminate].
    inversion H; subst. constructor; auto.
Qed.

Lemma gw_all_none : forall A B (f : A -> option B) l, gw_all f l = None -> exists a, In a l /\ f a = None.
Proof.
  induction l as [|a l IH]; simpl; intros H; [discriminate|].
  destruct (f a) as [b|] eqn:E; [|exists a; auto].
  destruct (gw_all f l) as [r'|]; [discriminate|]. destruct IH as [x [H1 H2]]; auto. exists x; auto.
Qed.

(* the scan of interfaces *)

Definition asks (i : gwi) : bool :=
  match gi_gw i with None => false | Some (VBool b) => b | Some _ => true end.

Lemma asks_true : forall i, gw_valid (gi_gw i) -> (asks i = true <-> exists v, gi_gw i = Some v /\ v <> VBool false).
Proof.
  intros i V. unfold asks. destruct (gi_gw i) as [[ | [|] | | | | ]|] eqn:E; simpl in V; try contradiction; split;
    try discriminate; try (intros _; eexists; split; [reflexivity|discriminate]); auto.
  - intros [v [H1 H2]]. congruence.
  - intros [v [H1 H2]]. congruence.
Qed.

Definition scan_keep (lg : option val) (i : gwi) : gwi :=
  match lg with Some (VBool false) => if asks i then set_gw i None else i | _ => i end.

Lemma gw_scan_spec : forall is lg, (forall i, In i is -> gw_valid (gi_gw i)) ->
  gw_scan lg is =
  (match lg with None => if existsb asks is then Some (VBool true) else None | x => x end,
   match lg with None => existsb asks is | _ => false end,
   match lg with Some (VBool false) => map gi_node (filter asks is) | _ => [] end,
   map (scan_keep lg) is).
Proof.
  induction is as [|i r IH]; intros lg V.
  - simpl. destruct lg as [[ | [|] | | | | ]|]; reflexivity.
  - assert (Vr : forall j, In j r -> gw_valid (gi_gw j)) by (intros j Hj; apply V; right; auto).
    pose proof (V i (or_introl eq_refl)) as Vi. cbn [gw_scan existsb filter map].
    assert (A : asks i = match gi_gw i with None => false | Some (VBool b) => b | Some _ => true end) by reflexivity.
    destruct (gi_gw i) as [[ | [|] | | | | di]|] eqn:E; simpl in Vi; try contradiction;
      rewrite A; unfold scan_keep at 1; rewrite ?A;
      destruct lg as [[ | [|] | | | | ]|]; rewrite IH by auto; cbn [orb]; try reflexivity.
Qed.

Definition gw_step (lg : option val) (c : bool) (i : gwi) : gwi := if c then gw_narrow (scan_keep lg i) else scan_keep lg i.

(* ---- paths that are not addresses ---- *)

Lemma lookup_dset_na : forall k x d p, In k ["ipv4"; "ipv6"] -> not_address p ->
  lookup p (VDict (dset k x d)) = lookup p (VDict d).
Proof.
  intros k x d p Hk Hp. destruct p as [|k' q]; [contradiction|]. simpl in Hp. cbn [lookup].
  rewrite dget_dset_other; auto. intros ->. auto.
Qed.

Lemma lookup_prefix : forall q r v x, lookup (q ++ r) v = Some x -> exists y, lookup q v = Some y.
Proof.
  induction q as [|k q IH]; intros r v x H; simpl in *; [eauto|].
  destruct v; try discriminate. destruct (dget k d) as [z|]; [|discriminate]. eauto.
Qed.

Lemma over_same : forall p a b, p <> [] -> (forall q r, q ++ r = p -> q <> [] -> lookup q a = lookup q b) -> is_dict a = true -> is_dict b = true ->
  (overridden p a <-> overridden p b).
Proof.
  assert (G : forall p a b, p <> [] -> (forall q r, q ++ r = p -> q <> [] -> lookup q a = lookup q b) -> is_dict a = true ->
              overridden p a -> overridden p b).
  { intros p a b Hp H Da [[v Hv]|[q [r [v [H1 [H2 H3]]]]]].
    - left. exists v. rewrite <- (H p []); auto. apply app_nil_r.
    - right. exists q, r, v. split; auto. split; auto.
      rewrite <- (H q r); auto. intros ->. simpl in H2. inversion H2; subst. congruence. }
  intros p a b Hp H Da Db. split; apply G; auto. intros q r E N. symmetry. eapply H; eauto.
Qed.

Lemma over_dset_na : forall k x d p, In k ["ipv4"; "ipv6"] -> not_address p ->
  (overridden p (VDict (dset k x d)) <-> overridden p (VDict d)).
Proof.
  intros k x d p Hk Hp. apply over_same; auto.
  - intros ->. contradiction.
  - intros q r E N. apply lookup_dset_na; auto. destruct q as [|k' q]; [congruence|]. subst p. exact Hp.
Qed.

(* d' is d with other addresses *)
Definition same_na (d d' : dict val) : Prop :=
  forall p, not_address p -> lookup p (VDict d') = lookup p (VDict d).

Lemma same_na_refl : forall d, same_na d d.
Proof. intros d p _. reflexivity. Qed.
Lemma same_na_trans : forall a b c, same_na a b -> same_na b c -> same_na a c.
Proof. intros a b c H1 H2 p N. rewrite H2, H1; auto. Qed.
Lemma same_na_dset : forall k x d, In k ["ipv4"; "ipv6"] -> same_na d (dset k x d).
Proof. intros k x d Hk p N. apply lookup_dset_na; auto. Qed.

Lemma same_na_leaf : forall d d' p x, same_na d d' -> not_address p -> (leaf p (VDict d') x <-> leaf p (VDict d) x).
Proof. intros d d' p x H N. unfold leaf. rewrite (H p N). tauto. Qed.

Lemma same_na_over : forall d d' p, same_na d d' -> not_address p -> (overridden p (VDict d') <-> overridden p (VDict d)).
Proof.
  intros d d' p H N. apply over_same; auto.
  - intros ->. contradiction.
  - intros q r E Nq. apply H. destruct q as [|k' q]; [congruence|]. subst p. exact N.
Qed.

Lemma copy_afs_na : forall ld d, same_na d (copy_afs ld d).
Proof.
  intros ld d. unfold copy_afs, gw_af_list. cbn [fold_left].
  eapply same_na_trans with (b := match dget "ipv4" ld with Some v => dset "ipv4" v d | None => d end).
  - destruct (dget "ipv4" ld); [apply same_na_dset; simpl; auto|apply same_na_refl].
  - destruct (dget "ipv6" ld); [apply same_na_dset; simpl; auto|apply same_na_refl].
Qed.

Lemma copy_afs_wf : forall ld d, wf (VDict ld) -> wf (VDict d) -> wf (VDict (copy_afs ld d)).
Proof.
  assert (G : forall k x d, wf x -> wf (VDict d) -> wf (VDict (dset k x d))).
  { intros k x d Wx W. apply wf_VDict in W. apply wf_VDict. destruct W as [N W]. split; [now apply NoDup_dset|].
    intros k' v' Hin. clear N. induction d as [|[k2 v2] r IH]; simpl in Hin.
    - destruct Hin as [E|[]]. congruence.
    - destruct (String.eqb k k2).
      + destruct Hin as [E|Hin]; [congruence|]. apply (W k' v'). right; auto.
      + destruct Hin as [E|Hin]; [apply (W k' v'); left; auto|]. apply IH; auto. intros; apply (W k0 v); right; auto. }
  intros ld d Wl W. unfold copy_afs, gw_af_list. cbn [fold_left].
  assert (W1 : wf (VDict match dget "ipv4" ld with Some v => dset "ipv4" v d | None => d end)).
  { destruct (dget "ipv4" ld) as [v|] eqn:E; auto. apply G; auto. exact (wf_dget ld _ _ Wl E). }
  destruct (dget "ipv6" ld) as [v|] eqn:E; auto. apply G; auto. exact (wf_dget ld _ _ Wl E).
Qed.

Lemma dget_copy_afs : forall ld d af, In af ["ipv4"; "ipv6"] ->
  dget af (copy_afs ld d) = match dget af ld with Some v => Some v | None => dget af d end.
Proof.
  intros ld d af H. unfold copy_afs, gw_af_list. cbn [fold_left].
  destruct H as [<-|[<-|[]]].
  - destruct (dget "ipv6" ld) as [v6|].
    + rewrite dget_dset_other by discriminate. destruct (dget "ipv4" ld); [apply dget_dset_same|reflexivity].
    + destruct (dget "ipv4" ld); [apply dget_dset_same|reflexivity].
  - destruct (dget "ipv6" ld) as [v6|]; [apply dget_dset_same|].
    destruct (dget "ipv4" ld); [apply dget_dset_other; discriminate|reflexivity].
Qed.

(* ---- addresses of the link gateway ---- *)

Lemma gw_addresses_spec : forall nth afs z d d', NoDup afs -> incl afs ["ipv4"; "ipv6"] ->
  gw_addresses nth afs (VInt z) d = (d', []) ->
  same_na d d' /\ (wf (VDict d) -> wf (VDict d')) /\
  (forall af, In af afs -> exists a, nth af z = Some a /\ dget af d' = Some (VStr a)) /\
  (forall af, ~ In af afs -> dget af d' = dget af d).
Proof.
  intros nth afs z. induction afs as [|af r IH]; intros d d' ND I H; cbn [gw_addresses] in H.
  - inversion H; subst. split; [apply same_na_refl|]. split; [auto|]. split; [intros af []|auto].
  - destruct (nth af z) as [a|] eqn:E; [|inversion H]. inversion ND as [|? ? Hn ND']; subst.
    apply IH in H; auto; [|intros x Hx; apply I; right; auto]. destruct H as [H1 [H2 [H3 H4]]]. split; [|split; [|split]].
    + eapply same_na_trans; [|exact H1]. apply same_na_dset. apply I. left; auto.
    + intros W. apply H2. apply wf_VDict in W. apply wf_VDict. destruct W as [N W]. split; [now apply NoDup_dset|].
      intros k v Hin. clear - W Hin. induction d as [|[k2 v2] q IHd]; simpl in Hin.
      * destruct Hin as [E|[]]. inversion E; subst. constructor.
      * destruct (String.eqb af k2).
        -- destruct Hin as [E|Hin]; [inversion E; subst; constructor|]. apply (W k v). right; auto.
        -- destruct Hin as [E|Hin]; [apply (W k v); left; auto|]. apply IHd; auto. intros; apply (W k0 v0); right; auto.
    + intros x [Hx|Hx]; [|auto]. subst x. exists a. split; auto. rewrite H4 by auto. apply dget_dset_same.
    + intros x Hx. rewrite H4 by (intros C; apply Hx; right; auto). apply dget_dset_other.
      intros ->. apply Hx. left; auto.
Qed.

(* ---- one interface ---- *)

Definition gw_eff (g : dict val) (lg : option val) : dict val := match own lg with VDict d => mdict g d | _ => g end.

Lemma gw_eff_merge : forall g lg, VDict (gw_eff g lg) = merge (VDict g) (own lg).
Proof.
  intros g lg. unfold gw_eff. destruct lg as [[ | | | | | d]|]; simpl own; rewrite merge_dicts; reflexivity.
Qed.

(* the gateway of the link is set up *)
Definition link_on (lg : option val) (is : list gwi) : Prop :=
  match lg with Some (VBool false) => False | Some _ => True | None => exists i, In i is /\ asks i = true end.

Lemma gw_eff_wf : forall g lg, wf (VDict g) -> gw_valid lg -> wf (VDict (gw_eff g lg)).
Proof.
  intros g lg W V. rewrite gw_eff_merge. apply merge_wf; auto.
  destruct lg as [[ | | | | | d]|]; simpl; auto; repeat split; constructor.
Qed.

Lemma gw_check_ok : forall d go, gw_check d = (go, []) ->
  go = true /\ (exists z, dget "id" d = Some (VInt z) /\ z <> 0%Z /\ z <> (-1)%Z) /\
  (exists v, dget "protocol" d = Some v /\ truthy v = true).
Proof.
  intros d go H. unfold gw_check in H. cbv zeta in H.
  destruct (dget "id" d) as [v|] eqn:E1; [|inversion H].
  destruct (truthy v) eqn:T; [|inversion H]. cbn [negb] in H.
  destruct (dget "protocol" d) as [v2|] eqn:E2; [|inversion H].
  destruct (truthy v2) eqn:T2; [|inversion H]. cbn [negb] in H.
  destruct v as [ | | z | | | ]; try (inversion H; fail).
  destruct (Z.eqb_spec z (-1)) as [E|E]; [inversion H|]. inversion H; subst.
  split; [reflexivity|]. split; [|eauto]. exists z. split; [reflexivity|]. split; [|exact E].
  simpl in T. destruct (Z.eqb_spec z 0); [discriminate|auto].
Qed.

Definition cflag (lg : option val) (is : list gwi) : bool := match lg with None => existsb asks is | _ => false end.

(* the interface after the link hook *)
Definition pre_intf (g : dict val) (lg : option val) (is : list gwi) (i : gwi) : gwi :=
  gw_fill (VDict (gw_eff g lg)) (gw_step lg (cflag lg is) i).

Lemma gw_link_pre_on : forall protos g lg is lg' is' w, gw_valid lg -> (forall i, In i is -> gw_valid (gi_gw i)) ->
  link_on lg is -> gw_link_pre protos g lg is = (lg', is', w, []) ->
  lg' = Some (VDict (gw_eff g lg)) /\ is' = map (pre_intf g lg is) is /\ w = [] /\
  (exists z, dget "id" (gw_eff g lg) = Some (VInt z) /\ z <> 0%Z /\ z <> (-1)%Z) /\
  (exists v, dget "protocol" (gw_eff g lg) = Some v /\ truthy v = true) /\
  (forall d, lg = Some (VDict d) -> forall v, dget "protocol" d = Some v -> exists s, v = VStr s /\ In s protos).
Proof.
  intros protos g lg is lg' is' w Vl Vi On H. unfold gw_link_pre in H. rewrite gw_scan_spec in H by auto.
  assert (X : forall d2 e1 w0 is2, (let (go, e2) := gw_check d2 in
             (Some (VDict d2), (if go then map (gw_fill (VDict d2)) is2 else is2), w0, e1 ++ e2)) = (lg', is', w, []) ->
             lg' = Some (VDict d2) /\ is' = map (gw_fill (VDict d2)) is2 /\ w = w0 /\ e1 = [] /\
             (exists z, dget "id" d2 = Some (VInt z) /\ z <> 0%Z /\ z <> (-1)%Z) /\
             (exists v, dget "protocol" d2 = Some v /\ truthy v = true)).
  { intros d2 e1 w0 is2 H0. destruct (gw_check d2) as [go e2] eqn:E.
    assert (Ee : e1 ++ e2 = []) by congruence. apply app_eq_nil in Ee. destruct Ee as [-> ->].
    apply gw_check_ok in E. destruct E as [-> [H1 H2]]. inversion H0; subst. auto 10. }
  unfold pre_intf, gw_step, cflag. rewrite <- (map_map (fun i => if match lg with None => existsb asks is | _ => false end then gw_narrow (scan_keep lg i) else scan_keep lg i) (gw_fill (VDict (gw_eff g lg)))).
  assert (Hm : (if match lg with None => existsb asks is | _ => false end then map gw_narrow (map (scan_keep lg) is) else map (scan_keep lg) is)
             = map (fun i => if match lg with None => existsb asks is | _ => false end then gw_narrow (scan_keep lg i) else scan_keep lg i) is).
  { destruct (match lg with None => existsb asks is | _ => false end); [apply map_map|reflexivity]. }
  rewrite <- Hm. clear Hm.
  destruct lg as [[ | [|] | | | | dl]|]; simpl in Vl, On; try contradiction.
  - apply X in H. destruct H as [H1 [H2 [H3 [_ [H5 H6]]]]].
    split; [exact H1|]. split; [exact H2|]. split; [exact H3|]. split; [exact H5|]. split; [exact H6|]. intros d C; discriminate.
  - rewrite merge_dicts in H. apply X in H. destruct H as [H1 [H2 [H3 [H4 [H5 H6]]]]].
    split; [exact H1|]. split; [exact H2|]. split; [exact H3|]. split; [exact H5|]. split; [exact H6|].
    intros d E v Ev. inversion E; subst d. unfold check_gw_protocol in H4. rewrite Ev in H4.
    destruct v as [ | | | s | | ]; try discriminate. destruct (memS s protos) eqn:Em; [|discriminate].
    exists s. split; auto. now apply memS_true.
  - assert (Ex : existsb asks is = true) by (apply existsb_exists; exact On). rewrite Ex in *.
    apply X in H. destruct H as [H1 [H2 [H3 [_ [H5 H6]]]]].
    split; [exact H1|]. split; [exact H2|]. split; [exact H3|]. split; [exact H5|]. split; [exact H6|]. intros d C; discriminate.
Qed.

Lemma gw_link_pre_off : forall protos g lg is, gw_valid lg -> (forall i, In i is -> gw_valid (gi_gw i)) ->
  ~ link_on lg is -> exists is', gw_link_pre protos g lg is = (None, is', match lg with Some _ => map gi_node (filter asks is) | None => [] end, []) /\
  (lg = None -> is' = is) /\ (lg <> None -> is' = map (fun i => set_gw i None) is).
Proof.
  intros protos g lg is Vl Vi Off. unfold gw_link_pre. rewrite gw_scan_spec by auto.
  destruct lg as [[ | [|] | | | | dl]|]; simpl in Vl, Off; try contradiction; try tauto.
  - eexists. split; [reflexivity|]. split; [congruence|]. intros _. rewrite map_map. apply map_ext.
    intros a. unfold scan_keep. destruct (asks a); reflexivity.
  - assert (Ex : existsb asks is = false).
    { destruct (existsb asks is) eqn:E; auto. exfalso. apply Off. now apply existsb_exists. }
    rewrite Ex. eexists. split; [reflexivity|]. split; [|congruence]. intros _. apply map_id.
Qed.

Lemma wanted_on : forall lg is i, In i is -> gw_valid (gi_gw i) -> wanted lg i -> link_on lg is.
Proof.
  intros lg is i Hi V W. destruct lg as [[ | [|] | | | | ]|]; simpl in *; auto.
  exists i. split; auto. now apply asks_true.
Qed.

(* the gateway of an interface of a node using the module *)
Lemma intf_on : forall g lg is i ld j,
  In i is -> gw_valid lg -> gw_valid (gi_gw i) -> link_on lg is -> gi_mod i = true -> gi_host i = false ->
  copy_gateway1 (VDict ld) (pre_intf g lg is i) = Some j ->
  (wanted lg i -> exists d, intf_gateway (Some (VDict ld)) j = Some (merge (VDict ld) (VDict (copy_afs ld d))) /\
                            (VDict d = own (gi_gw i) \/ (gi_gw i = Some (VBool true) /\ d = gw_eff g lg))) /\
  (~ wanted lg i -> intf_gateway (Some (VDict ld)) j = Some (VBool false)).
Proof.
  intros g lg is i ld j Hi Vl V On Hm Hh H.
  destruct i as [nm hs md gw]. simpl in Hm, Hh, V. subst hs md.
  assert (A : forall gw0 (k : gwi) d, k = mk_gwi nm false true gw0 -> copy_gateway1 (VDict ld) k = Some j ->
              (gw0 = Some (VDict d) \/ (gw0 = None /\ d = [])) ->
              intf_gateway (Some (VDict ld)) j = Some (merge (VDict ld) (VDict (copy_afs ld d)))).
  { intros gw0 k d -> Hc [->|[-> ->]]; unfold copy_gateway1 in Hc; cbn [gi_host gi_mod gi_gw negb set_gw] in Hc.
    - inversion Hc; subst. reflexivity.
    - destruct (copy_afs ld []) as [|kv r] eqn:E; inversion Hc; subst; reflexivity. }
  assert (B : forall k : gwi, k = mk_gwi nm false true (Some (VBool false)) -> copy_gateway1 (VDict ld) k = Some j ->
              intf_gateway (Some (VDict ld)) j = Some (VBool false)).
  { intros k -> Hc. cbn in Hc. inversion Hc; subst. reflexivity. }
  unfold pre_intf, gw_step, cflag in H.
  destruct lg as [[ | [|] | | | | dl]|]; simpl in Vl, On; try contradiction;
    destruct gw as [[ | [|] | | | | di]|]; simpl in V; try contradiction; cbn [wanted gi_gw];
    try (assert (Ex : existsb asks is = true) by (apply existsb_exists; exact On); rewrite Ex in H);
    cbv beta iota delta [scan_keep gw_narrow gw_fill set_gw gi_gw gi_mod gi_node gi_host] in H.
  - (* link True, interface True *)
    split; [|intros C; exfalso; apply C; discriminate]. intros _. exists (gw_eff g (Some (VBool true))). split; [|right; auto].
    eapply A; [reflexivity|exact H|left; reflexivity].
  - split; [intros C; congruence|]. intros _. eapply B; [reflexivity|exact H].
  - split; [|intros C; exfalso; apply C; discriminate]. intros _. exists di. split; [|left; reflexivity].
    eapply A; [reflexivity|exact H|left; reflexivity].
  - split; [|intros C; exfalso; apply C; discriminate]. intros _. exists []. split; [|left; reflexivity].
    eapply A; [reflexivity|exact H|right; auto].
  - split; [|intros C; exfalso; apply C; discriminate]. intros _. exists (gw_eff g (Some (VDict dl))). split; [|right; auto].
    eapply A; [reflexivity|exact H|left; reflexivity].
  - split; [intros C; congruence|]. intros _. eapply B; [reflexivity|exact H].
  - split; [|intros C; exfalso; apply C; discriminate]. intros _. exists di. split; [|left; reflexivity].
    eapply A; [reflexivity|exact H|left; reflexivity].
  - split; [|intros C; exfalso; apply C; discriminate]. intros _. exists []. split; [|left; reflexivity].
    eapply A; [reflexivity|exact H|right; auto].
  - split; [|intros C; exfalso; apply C; eexists; split; [reflexivity|discriminate]]. intros _. exists []. split; [|left; reflexivity].
    eapply A; [reflexivity|exact H|right; auto].
  - split; [intros [v [C1 C2]]; congruence|]. intros _. eapply B; [reflexivity|exact H].
  - split; [|intros C; exfalso; apply C; eexists; split; [reflexivity|discriminate]]. intros _. exists di. split; [|left; reflexivity].
    eapply A; [reflexivity|exact H|left; reflexivity].
  - split; [intros [v [C1 C2]]; congruence|]. intros _. eapply B; [reflexivity|exact H].
Qed.

(* what gw_link does when a gateway is set up *)
Lemma gw_link_on : forall nth protos g afs lg is lg' gs w,
  gw_valid lg -> (forall i, In i is -> gw_valid (gi_gw i)) -> NoDup afs -> incl afs ["ipv4"; "ipv6"] ->
  existsb gi_mod is = true -> link_on lg is ->
  gw_link nth protos g afs lg is = Ok (lg', gs, w) ->
  exists ld z, lg' = Some (VDict ld) /\ same_na (gw_eff g lg) ld /\ w = [] /\
    (wf (VDict g) -> wf (VDict ld)) /\
    dget "id" (gw_eff g lg) = Some (VInt z) /\ z <> 0%Z /\ z <> (-1)%Z /\
    (forall af, In af afs -> exists a, nth af z = Some a /\ dget af ld = Some (VStr a)) /\
    (forall d, lg = Some (VDict d) -> forall v, dget "protocol" d = Some v -> exists s, v = VStr s /\ In s protos) /\
    (exists v, dget "protocol" (gw_eff g lg) = Some v /\ truthy v = true) /\
    Forall2 (fun i v => exists j, copy_gateway1 (VDict ld) (pre_intf g lg is i) = Some j /\ v = intf_gateway (Some (VDict ld)) j) is gs.
Proof.
  intros nth protos g afs lg is lg' gs w Vl Vi ND I Em On H. unfold gw_link in H. rewrite Em in H.
  destruct (gw_link_pre protos g lg is) as [[[lg1 is1] w1] e] eqn:P.
  destruct e as [|e0 e]; [|discriminate].
  apply gw_link_pre_on in P; auto. destruct P as [-> [-> [-> [[z [Hz [Hz0 Hz1]]] [Hp Hq]]]]].
  unfold set_fhrp_gateway in H. rewrite Hz in H.
  assert (T : truthy (VInt z) = true). { simpl. destruct (Z.eqb_spec z 0); [contradiction|reflexivity]. }
  rewrite T in H. destruct (gw_addresses nth afs (VInt z) (gw_eff g lg)) as [ld e2] eqn:G.
  destruct e2 as [|e0 e2]; [|discriminate].
  apply gw_addresses_spec in G; auto. destruct G as [G1 [G2 [G3 G4]]].
  destruct (copy_link_gateway (Some (VDict ld)) (map (pre_intf g lg is) is)) as [is2|] eqn:C; [|discriminate].
  inversion H; subst. exists ld, z.
  split; [reflexivity|]. split; [exact G1|]. split; [reflexivity|]. split; [intros W; apply G2; apply gw_eff_wf; auto|].
  split; [exact Hz|]. split; [exact Hz0|]. split; [exact Hz1|]. split; [exact G3|]. split; [exact Hq|]. split; [exact Hp|].
  unfold copy_link_gateway in C. apply gw_all_F2 in C. clear - C.
  revert is2 C. generalize (pre_intf g lg is). intros f. induction is as [|i r IH]; intros is2 C; inversion C; subst; simpl; constructor; eauto.
Qed.

(* ------------------------------------------------------------------ *)
(* C81 *)

(* A first-hop gateway is set up exactly on the interfaces where it is wanted. *)
Theorem gateway_where_wanted : forall nth protos g afs lg is lg' gs w,
  gw_valid lg -> (forall i, In i is -> gw_valid (gi_gw i)) -> NoDup afs -> incl afs ["ipv4"; "ipv6"] ->
  gw_link nth protos g afs lg is = Ok (lg', gs, w) ->
  Forall2 (fun i v => gi_mod i = true -> gi_host i = false ->
             (wanted lg i -> exists d, v = Some (VDict d)) /\
             (~ wanted lg i -> v = None \/ v = Some (VBool false))) is gs.
Proof.
  intros nth protos g afs lg is lg' gs w Vl Vi ND I H.
  destruct (existsb gi_mod is) eqn:Em.
  2:{ unfold gw_link in H. rewrite Em in H. destruct (set_fhrp_gateway nth afs lg) as [lg2 [|e e2]]; [|discriminate].
      destruct (copy_link_gateway lg2 is) as [is2|] eqn:C; [|discriminate]. inversion H; subst.
      assert (L : length is = length (map (intf_gateway lg') is2)).
      { rewrite map_length. destruct lg' as [x|]; simpl in C; [apply gw_all_F2 in C; eapply Forall2_length; eauto|inversion C; auto]. }
      assert (Z : forall i, In i is -> gi_mod i = false).
      { intros i Hi. destruct (gi_mod i) eqn:E; auto. assert (existsb gi_mod is = true) by (apply existsb_exists; eauto). congruence. }
      clear - L Z. revert L. generalize (map (intf_gateway lg') is2). intros l. revert l.
      induction is as [|i r IH]; intros [|v l] L; simpl in L; try discriminate; constructor.
      - intros C. rewrite Z in C by (left; auto). discriminate.
      - apply IH; [intros j Hj; apply Z; right; auto|congruence]. }
  assert (Dec : link_on lg is \/ ~ link_on lg is).
  { destruct lg as [[ | [|] | | | | ]|]; simpl; auto.
    destruct (existsb asks is) eqn:E; [left; now apply existsb_exists|].
    right. intros C. apply existsb_exists in C. congruence. }
  destruct Dec as [On|Off].
  - apply gw_link_on in H; auto. destruct H as [ld [z [_ [_ [_ [_ [_ [_ [_ [_ [_ [_ F]]]]]]]]]]]].
    eapply F2_ext_gw; [|exact F]. intros i v Hi [j [Hc ->]] Hm Hh.
    destruct (intf_on g lg is i ld j) as [H1 H2]; auto. split.
    + intros W. destruct (H1 W) as [d [-> _]]. rewrite merge_dicts. eauto.
    + intros W. right. auto.
  - unfold gw_link in H. rewrite Em in H.
    destruct (gw_link_pre_off protos g lg is) as [is' [P [P1 P2]]]; auto. rewrite P in H. cbn [set_fhrp_gateway copy_link_gateway] in H.
    inversion H; subst. destruct lg as [x|].
    + rewrite P2 by discriminate. rewrite map_map. eapply F2_ext_gw; [|apply F2_map_id]. intros i v Hi -> Hm Hh. split.
      * intros W. exfalso. apply Off. eapply wanted_on; eauto.
      * intros _. left. unfold intf_gateway, set_gw. simpl. destruct (gi_mod i); reflexivity.
    + rewrite P1 by reflexivity. eapply F2_ext_gw; [|apply F2_map_id]. intros i v Hi -> Hm Hh. split.
      * intros W. exfalso. apply Off. eapply wanted_on; eauto.
      * intros W. unfold intf_gateway. rewrite Hm. cbn [wanted] in W.
        pose proof (Vi i Hi) as V. destruct (gi_gw i) as [[ | [|] | | | | ]|] eqn:E; simpl in V; try contradiction; auto;
          exfalso; apply W; eexists; split; eauto; discriminate.
Qed.

Lemma own_dict : forall o, exists d, own o = VDict d.
Proof. intros [[ | | | | | d]|]; simpl; eauto. Qed.

Lemma own_wf : forall o, gw_valid o -> wf (own o).
Proof. intros [[ | | | | | d]|] V; simpl in *; auto; try contradiction; repeat split; constructor. Qed.

Lemma leaf_empty : forall p x, p <> [] -> ~ leaf p (VDict []) x.
Proof. intros [|k p] x N [H _]; [congruence|]. discriminate. Qed.

Lemma over_empty : forall p, p <> [] -> ~ overridden p (VDict []).
Proof.
  intros p N [[v H]|[q [r [v [H1 [H2 H3]]]]]].
  - destruct p; [congruence|discriminate].
  - destruct q as [|k q]; simpl in H2; [inversion H2; subst; discriminate|discriminate].
Qed.

(* The settings of an interface gateway come from the interface, then the link, then the global settings. *)
Theorem gateway_settings : forall nth protos g afs lg is lg' gs w,
  wf (VDict g) -> gw_valid lg -> (forall i, In i is -> gw_valid (gi_gw i)) -> NoDup afs -> incl afs ["ipv4"; "ipv6"] ->
  gw_link nth protos g afs lg is = Ok (lg', gs, w) ->
  Forall2 (fun i v => gi_mod i = true -> gi_host i = false -> wanted lg i ->
             exists d, v = Some d /\
               forall p x, not_address p -> (leaf p d x <-> first_leaf [own (gi_gw i); own lg; VDict g] p x)) is gs.
Proof.
  intros nth protos g afs lg is lg' gs w Wg Vl Vi ND I H.
  destruct (existsb gi_mod is) eqn:Em.
  2:{ apply gateway_where_wanted in H; auto. eapply F2_ext_gw; [|exact H]. intros i v Hi _ Hm.
      exfalso. assert (existsb gi_mod is = true) by (apply existsb_exists; eauto). congruence. }
  assert (Dec : link_on lg is \/ ~ link_on lg is).
  { destruct lg as [[ | [|] | | | | ]|]; simpl; auto.
    destruct (existsb asks is) eqn:E; [left; now apply existsb_exists|].
    right. intros C. apply existsb_exists in C. congruence. }
  destruct Dec as [On|Off].
  2:{ apply gateway_where_wanted in H; auto. eapply F2_ext_gw; [|exact H]. intros i v Hi _ Hm Hh W.
      exfalso. apply Off. eapply wanted_on; eauto. }
  apply gw_link_on in H; auto. destruct H as [ld [z [_ [Sn [_ [Wl [_ [_ [_ [_ [_ [_ F]]]]]]]]]]]].
  eapply F2_ext_gw; [|exact F]. intros i v Hi [j [Hc ->]] Hm Hh W.
  destruct (intf_on g lg is i ld j) as [H1 _]; auto. destruct (H1 W) as [d [E D]]. rewrite E.
  eexists. split; [reflexivity|]. intros p x Np.
  assert (Ne : p <> []) by (intros ->; contradiction).
  assert (Wd : wf (VDict d)).
  { destruct D as [D|[_ ->]]; [|apply gw_eff_wf; auto]. rewrite D. apply own_wf. auto. }
  rewrite merge_leaves by (apply copy_afs_wf; auto).
  rewrite (same_na_leaf _ _ p x (copy_afs_na ld d) Np), (same_na_over _ _ p (copy_afs_na ld d) Np).
  rewrite (same_na_leaf _ _ p x Sn Np).
  assert (EL : leaf p (VDict (gw_eff g lg)) x <-> leaf p (own lg) x \/ (~ overridden p (own lg) /\ leaf p (VDict g) x)).
  { rewrite gw_eff_merge, merge_leaves by (apply own_wf; auto). tauto. }
  cbn [first_leaf]. destruct D as [D|[D1 D2]].
  - rewrite D, EL. tauto.
  - assert (O : own (gi_gw i) = VDict []) by (rewrite D1; reflexivity). rewrite O. subst d.
    pose proof (leaf_empty p x Ne). pose proof (over_empty p Ne). tauto.
Qed.

(* All gateways of a link share the address of the link gateway, which is given by the id set on the link or globally. *)
Theorem gateway_address_shared : forall nth protos g afs lg is d gs w,
  wf (VDict g) -> gw_valid lg -> (forall i, In i is -> gw_valid (gi_gw i)) -> NoDup afs -> incl afs ["ipv4"; "ipv6"] ->
  (exists i, In i is /\ gi_mod i = true) ->
  gw_link nth protos g afs lg is = Ok (Some (VDict d), gs, w) ->
  exists z, first_leaf [own lg; VDict g] ["id"] (VInt z) /\ z <> 0%Z /\ z <> (-1)%Z /\
    forall af, In af afs -> exists a, nth af z = Some a /\ dget af d = Some (VStr a) /\
      Forall2 (fun i v => gi_host i = true \/ (gi_mod i = true /\ wanted lg i) ->
                 exists x, v = Some x /\ lookup [af] x = Some (VStr a)) is gs.
Proof.
  intros nth protos g afs lg is d gs w Wg Vl Vi ND I [im [Him Hmm]] H.
  assert (Em : existsb gi_mod is = true) by (apply existsb_exists; eauto).
  assert (On : link_on lg is).
  { destruct lg as [[ | [|] | | | | ]|] eqn:Elg; simpl; auto.
    - unfold gw_link in H. rewrite Em in H.
      destruct (gw_link_pre_off protos g (Some (VBool false)) is) as [is' [P _]]; auto. rewrite P in H. discriminate.
    - destruct (existsb asks is) eqn:E; [now apply existsb_exists|]. exfalso.
      assert (Off : ~ link_on None is). { intros [i [Hi Ha]]. assert (existsb asks is = true) by (apply existsb_exists; eauto). congruence. }
      unfold gw_link in H. rewrite Em in H.
      destruct (gw_link_pre_off protos g None is) as [is' [P _]]; auto. rewrite P in H. discriminate. }
  apply gw_link_on in H; auto. destruct H as [ld [z [El [Sn [_ [Wl [Hid [Z0 [Z1 [Ha [_ [_ F]]]]]]]]]]]].
  inversion El; subst d. clear El. exists z. split; [|split; [auto|split; [auto|]]].
  - assert (L : leaf ["id"] (VDict (gw_eff g lg)) (VInt z)) by (split; [simpl; rewrite Hid|]; reflexivity).
    rewrite gw_eff_merge in L. apply merge_leaves in L; [|apply own_wf; auto]. cbn [first_leaf]. tauto.
  - intros af Haf. destruct (Ha af Haf) as [a [Hn Hd]]. exists a. split; auto. split; auto.
    assert (Ia : In af ["ipv4"; "ipv6"]) by auto.
    eapply F2_ext_gw; [|exact F]. intros i v Hi [j [Hc ->]] Hcase.
    destruct (gi_host i) eqn:Hh.
    + assert (Hp : gi_host (pre_intf g lg is i) = true /\ gi_mod (pre_intf g lg is i) = gi_mod i).
      { unfold pre_intf, gw_fill, gw_step, gw_narrow, scan_keep.
        destruct i as [nm hs md gw]; simpl in Hh; subst hs.
        destruct lg as [[ | [|] | | | | ]|]; destruct gw as [[ | [|] | | | | ]|]; destruct md; destruct (cflag _ is);
          try (split; reflexivity); cbn; split; reflexivity. }
      destruct Hp as [Hp1 Hp2]. unfold copy_gateway1 in Hc. rewrite Hp1 in Hc. inversion Hc; subst.
      unfold intf_gateway, set_gw. cbn [gi_mod gi_gw]. rewrite Hp2. destruct (gi_mod i).
      * rewrite merge_idempotent by auto. eexists. split; [reflexivity|]. cbn [lookup]. now rewrite Hd.
      * eexists. split; [reflexivity|]. cbn [lookup]. now rewrite Hd.
    + destruct Hcase as [C|[Hm W]]; [discriminate|].
      destruct (intf_on g lg is i ld j) as [H1 _]; auto. destruct (H1 W) as [d [E D]]. rewrite E.
      eexists. split; [reflexivity|]. rewrite merge_dicts. cbn [lookup].
      assert (Wd : wf (VDict d)).
      { destruct D as [D|[_ ->]]; [|apply gw_eff_wf; auto]. rewrite D. apply own_wf. auto. }
      pose proof (copy_afs_wf ld d (Wl Wg) Wd) as Wc. apply wf_VDict in Wc. destruct Wc as [Nc _].
      rewrite dget_mdict by auto. rewrite dget_copy_afs by auto. rewrite Hd. reflexivity.
Qed.

(* Settings of interfaces are ignored, with a warning, exactly when the gateway is switched off on the link. *)
Theorem gateway_off_on_link : forall nth protos g afs is lg' gs w,
  (forall i, In i is -> gw_valid (gi_gw i)) -> (exists i, In i is /\ gi_mod i = true) ->
  gw_link nth protos g afs (Some (VBool false)) is = Ok (lg', gs, w) ->
  lg' = None /\ Forall (fun v => v = None) gs /\
  forall n, In n w <-> exists i v, In i is /\ gi_node i = n /\ gi_gw i = Some v /\ v <> VBool false.
Proof.
  intros nth protos g afs is lg' gs w Vi [im [Him Hmm]] H.
  assert (Em : existsb gi_mod is = true) by (apply existsb_exists; eauto).
  unfold gw_link in H. rewrite Em in H.
  destruct (gw_link_pre_off protos g (Some (VBool false)) is) as [is' [P [_ P2]]]; simpl; auto. rewrite P in H.
  cbn [set_fhrp_gateway copy_link_gateway] in H. inversion H; subst. split; auto. split.
  - rewrite P2 by discriminate. rewrite map_map. apply Forall_forall. intros v Hv. apply in_map_iff in Hv.
    destruct Hv as [i [<- _]]. unfold intf_gateway, set_gw. simpl. destruct (gi_mod i); reflexivity.
  - intros n. rewrite in_map_iff. split.
    + intros [i [E Hi]]. apply filter_In in Hi. destruct Hi as [Hi Ha]. apply asks_true in Ha; auto.
      destruct Ha as [v [H1 H2]]. exists i, v. auto.
    + intros [i [v [Hi [E [H1 H2]]]]]. exists i. split; auto. apply filter_In. split; auto. apply asks_true; eauto.
Qed.

(* No warning is printed otherwise. *)
Theorem gateway_no_warning : forall nth protos g afs lg is lg' gs w,
  gw_valid lg -> (forall i, In i is -> gw_valid (gi_gw i)) -> lg <> Some (VBool false) ->
  gw_link nth protos g afs lg is = Ok (lg', gs, w) -> w = [].
Proof.
  intros nth protos g afs lg is lg' gs w Vl Vi Nf H. unfold gw_link in H.
  assert (W : forall is1 lg1 w1 e, gw_link_pre protos g lg is = (lg1, is1, w1, e) -> w1 = []).
  { intros is1 lg1 w1 e P. unfold gw_link_pre in P. rewrite gw_scan_spec in P by auto.
    destruct lg as [[ | [|] | | | | dl]|]; simpl in Vl; try contradiction; try congruence; cbv iota zeta in P.
    - destruct (gw_check g) as [go e2]. inversion P; auto.
    - rewrite merge_dicts in P. destruct (gw_check (mdict g dl)) as [go e2]. inversion P; auto.
    - destruct (existsb asks is); [destruct (gw_check g) as [go e2]|]; inversion P; auto. }
  destruct (existsb gi_mod is).
  - destruct (gw_link_pre protos g lg is) as [[[lg1 is1] w1] e] eqn:P.
    assert (w1 = []) by (eapply W; reflexivity). subst w1.
    destruct e; [|discriminate]. destruct (set_fhrp_gateway nth afs lg1) as [lg2 e2]. destruct e2; [|discriminate].
    destruct (copy_link_gateway lg2 is1); inversion H; auto.
  - destruct (set_fhrp_gateway nth afs lg) as [lg2 e2]. destruct e2; [|discriminate].
    destruct (copy_link_gateway lg2 is); inversion H; auto.
Qed.

Definition gw_kind (o : option val) : Prop :=
  match o with None => True | Some (VBool _) => True | Some (VDict _) => True | _ => False end.

Lemma gw_valid_kind : forall o, gw_valid o -> gw_kind o.
Proof. intros [[ | | | | | ]|]; simpl; auto. Qed.

Lemma pre_intf_kind : forall g lg is i, gw_kind (gi_gw i) -> gw_kind (gi_gw (pre_intf g lg is i)).
Proof.
  intros g lg is i K.
  assert (K1 : gw_kind (gi_gw (scan_keep lg i))).
  { unfold scan_keep. destruct lg as [[ | [|] | | | | ]|]; auto. destruct (asks i); simpl; auto. }
  assert (K2 : gw_kind (gi_gw (gw_step lg (cflag lg is) i))).
  { unfold gw_step. destruct (cflag lg is); auto. unfold gw_narrow.
    destruct (gi_mod (scan_keep lg i)); auto. destruct (gi_gw (scan_keep lg i)) as [[ | [|] | | | | ]|] eqn:E; simpl; auto; now rewrite E. }
  unfold pre_intf, gw_fill. destruct (gi_gw (gw_step lg (cflag lg is) i)) as [[ | [|] | | | | ]|] eqn:E; simpl; auto; now rewrite E.
Qed.

(* The transformation of a link never fails with an exception. *)
Theorem gateway_no_crash : forall nth protos g afs lg is e,
  gw_valid lg -> (forall i, In i is -> gw_valid (gi_gw i)) ->
  gw_link nth protos g afs lg is = Err e -> ~ In GwCrash e.
Proof.
  intros nth protos g afs lg is e Vl Vi H.
  assert (A : forall afs id d d' e, gw_addresses nth afs id d = (d', e) -> ~ In GwCrash e).
  { clear. induction afs as [|af r IH]; intros id d d' e H; cbn [gw_addresses] in H; [inversion H; subst; auto|].
    destruct (match id with VInt z => nth af z | _ => None end); [eauto|].
    inversion H; subst. intros [C|[]]. discriminate. }
  assert (B : forall lg lg' e, set_fhrp_gateway nth afs lg = (lg', e) -> ~ In GwCrash e).
  { intros lg0 lg' e0 H0. unfold set_fhrp_gateway in H0.
    destruct lg0 as [[ | | | | | d]|]; try (inversion H0; subst; simpl; tauto).
    destruct (dget "id" d) as [id|]; [|inversion H0; subst; simpl; tauto].
    destruct (truthy id); [|inversion H0; subst; simpl; tauto].
    destruct (gw_addresses nth afs id d) as [d' e1] eqn:G. inversion H0; subst. eapply A; eauto. }
  assert (C : forall d go e0, gw_check d = (go, e0) -> ~ In GwCrash e0).
  { intros d go e0 G. unfold gw_check in G. cbv zeta in G.
    repeat match type of G with (if ?b then _ else _) = _ => destruct b end;
      try (inversion G; subst; simpl; intuition discriminate).
    destruct (dget "id" d) as [[ | | z | | | ]|]; inversion G; subst; try (simpl; intuition discriminate).
    destruct (Z.eqb z (-1)); simpl; intuition discriminate. }
  assert (D : forall d, ~ In GwCrash (check_gw_protocol protos d)).
  { intros d. unfold check_gw_protocol. destruct (dget "protocol" d) as [[ | | | s | | ]|]; simpl; try (intuition discriminate).
    destruct (memS s protos); simpl; intuition discriminate. }
  assert (CC : forall lg2 is1, match lg2 with None => True | Some (VDict _) => True | Some _ => forall i, In i is1 -> gi_mod i = false end ->
             (forall i, In i is1 -> gi_gw i = Some (VBool true) -> gi_mod i = false) ->
             (forall i, In i is1 -> gw_kind (gi_gw i)) -> copy_link_gateway lg2 is1 <> None).
  { intros lg2 is1 V2 Vt Vg E. destruct lg2 as [x|]; [|discriminate]. cbn [copy_link_gateway] in E.
    apply gw_all_none in E. destruct E as [i [Hi E]]. unfold copy_gateway1 in E. specialize (Vt i Hi). specialize (Vg i Hi).
    destruct x as [ | | | | | ld]; try (rewrite (V2 i Hi) in E; discriminate).
    destruct (gi_host i); [discriminate|]. destruct (gi_mod i) eqn:Em; [|discriminate]. cbn [negb] in E.
    destruct (gi_gw i) as [[ | [|] | | | | ]|] eqn:Eg; simpl in Vg; try contradiction; try discriminate.
    - specialize (Vt eq_refl). discriminate.
    - destruct (copy_afs ld []); discriminate. }
  unfold gw_link in H. destruct (existsb gi_mod is) eqn:Em.
  - destruct (gw_link_pre protos g lg is) as [[[lg1 is1] w1] e1] eqn:P.
    destruct e1 as [|e0 e1].
    + destruct (set_fhrp_gateway nth afs lg1) as [lg2 e2] eqn:S. destruct e2 as [|e3 e2]; [|inversion H; subst; eauto].
      assert (Dec : link_on lg is \/ ~ link_on lg is).
      { destruct lg as [[ | [|] | | | | ]|]; simpl; auto.
        destruct (existsb asks is) eqn:E; [left; now apply existsb_exists|].
        right. intros X. apply existsb_exists in X. congruence. }
      destruct (copy_link_gateway lg2 is1) as [is2|] eqn:Ec; [discriminate|]. exfalso. revert Ec.
      destruct Dec as [On|Off].
      * apply gw_link_pre_on in P; auto. destruct P as [-> [-> _]]. apply CC.
        -- unfold set_fhrp_gateway in S. destruct (dget "id" (gw_eff g lg)) as [id|]; [|inversion S; subst; auto].
           destruct (truthy id); [|inversion S; subst; auto]. destruct (gw_addresses nth afs id (gw_eff g lg)); inversion S; subst; auto.
        -- intros i Hi E. exfalso. apply in_map_iff in Hi. destruct Hi as [j [<- Hj]].
           unfold pre_intf, gw_fill in E. destruct (gi_gw (gw_step lg (cflag lg is) j)) as [[ | [|] | | | | ]|] eqn:Eg; try congruence.
           simpl in E. discriminate.
        -- intros i Hi. apply in_map_iff in Hi. destruct Hi as [j [<- Hj]]. pose proof (Vi j Hj) as Vj.
           apply pre_intf_kind. apply gw_valid_kind. exact Vj.
      * destruct (gw_link_pre_off protos g lg is) as [is' [P' [P1 P2]]]; auto.
        assert (lg1 = None) by congruence. subst lg1. simpl in S. inversion S; subst. discriminate.
    + inversion H; subst e. unfold gw_link_pre in P. rewrite gw_scan_spec in P by auto. clear - P C D Vl.
      destruct lg as [[ | [|] | | | | dl]|]; simpl in Vl; try contradiction.
      * destruct (gw_check g) as [go e2] eqn:E. cbv iota zeta in P. inversion P. subst. eapply C; eauto.
      * inversion P.
      * rewrite merge_dicts in P. destruct (gw_check (mdict g dl)) as [go e2] eqn:E. inversion P.
        intros X. apply in_app_or in X. destruct X as [X|X]; [eapply D; eauto|eapply C; eauto].
      * destruct (existsb asks is); [|inversion P].
        destruct (gw_check g) as [go e2] eqn:E. cbv iota zeta in P. inversion P. subst. eapply C; eauto.
  - destruct (set_fhrp_gateway nth afs lg) as [lg2 e2] eqn:S. destruct e2 as [|e3 e2]; [|inversion H; subst; eauto].
    destruct (copy_link_gateway lg2 is) as [is2|] eqn:Ec; [discriminate|]. exfalso. revert Ec.
    assert (Z : forall i, In i is -> gi_mod i = false).
    { intros i Hi. destruct (gi_mod i) eqn:E; auto. assert (existsb gi_mod is = true) by (apply existsb_exists; eauto). congruence. }
    apply CC; auto.
    + destruct lg2 as [[ | | | | | ]|]; auto.
    + intros i Hi. apply gw_valid_kind. auto.
Qed.

Definition gw_globals : dict val :=
  [("id", VInt (-2)); ("protocol", VStr "anycast");
   ("anycast", VDict [("unicast", VBool true); ("mac", VStr "0200.cafe.00ff")]); ("vrrp", VDict [("group", VInt 1)])].

Definition nth_sample (af : string) (z : Z) : option string :=
  if (z =? -2)%Z then Some (if String.eqb af "ipv4" then "172.16.0.254/24" else "2001:db8::fe/64")
  else if (z =? 1)%Z then Some "172.16.0.1/24" else None.

(* three routers and a host; one of the routers asks for a gateway: it is set up there and its address is given to the host *)
Example gateway_case :
  let is := [mk_gwi "r1" false true (Some (VDict [("protocol", VStr "vrrp"); ("vrrp", VDict [("priority", VInt 20)])]));
             mk_gwi "r2" false true None; mk_gwi "r3" false false None; mk_gwi "h" true false None] in
  gw_link nth_sample ["anycast"; "vrrp"] gw_globals ["ipv4"] None is
  = Ok (Some (VDict (gw_globals ++ [("ipv4", VStr "172.16.0.254/24")])),
        [Some (VDict [("id", VInt (-2)); ("protocol", VStr "vrrp");
                      ("anycast", VDict [("unicast", VBool true); ("mac", VStr "0200.cafe.00ff")]);
                      ("vrrp", VDict [("group", VInt 1); ("priority", VInt 20)]); ("ipv4", VStr "172.16.0.254/24")]);
         Some (VBool false); None; Some (VDict (gw_globals ++ [("ipv4", VStr "172.16.0.254/24")]))], [])
  /\ wanted None (mk_gwi "r1" false true (Some (VDict [("protocol", VStr "vrrp"); ("vrrp", VDict [("priority", VInt 20)])])))
  /\ ~ wanted None (mk_gwi "r2" false true None).
Proof.
  split; [vm_compute; reflexivity|]. split.
  - eexists. split; [reflexivity|discriminate].
  - intros [v [C _]]. discriminate.
Qed.

Example gateway_link_case :
  let is := [mk_gwi "r1" false true (Some (VBool true)); mk_gwi "r2" false true (Some (VBool false)); mk_gwi "r3" false true None] in
  gw_link nth_sample ["anycast"; "vrrp"] gw_globals ["ipv4"] (Some (VDict [("id", VInt 1)])) is
  = Ok (Some (VDict (dset "id" (VInt 1) gw_globals ++ [("ipv4", VStr "172.16.0.1/24")])),
        [Some (VDict (dset "id" (VInt 1) gw_globals ++ [("ipv4", VStr "172.16.0.1/24")])); Some (VBool false);
         Some (VDict (dset "id" (VInt 1) gw_globals ++ [("ipv4", VStr "172.16.0.1/24")]))], [])
  /\ gw_link nth_sample ["anycast"; "vrrp"] gw_globals ["ipv4"] (Some (VBool false)) is
     = Ok (None, [None; None; None], ["r1"])
  /\ gw_link nth_sample ["anycast"; "vrrp"] gw_globals ["ipv4"] (Some (VDict [("id", VInt (-1)); ("protocol", VStr "hsrp")])) is
     = Err [GwProtocol; GwBroadcast]
  /\ gw_link nth_sample ["anycast"; "vrrp"] gw_globals ["ipv4"] (Some (VDict [("id", VInt 3)])) is = Err [GwAddress "ipv4"].
Proof. vm_compute. repeat split. Qed.

(* Errors: a link gateway needs a non-zero integer id other than -1 and a protocol; a protocol set on the link must be a
   known one; and there must be such an address in all the prefixes. *)
Theorem gateway_link_accepted : forall nth protos g afs lg is,
  wf (VDict g) -> gw_valid lg -> (forall i, In i is -> gw_valid (gi_gw i)) -> NoDup afs -> incl afs ["ipv4"; "ipv6"] ->
  (exists i, In i is /\ gi_mod i = true) -> link_on lg is ->
  ((exists r, gw_link nth protos g afs lg is = Ok r) <->
   (exists z, first_leaf [own lg; VDict g] ["id"] (VInt z) /\ z <> 0%Z /\ z <> (-1)%Z /\ forall af, In af afs -> nth af z <> None) /\
   (exists v, lookup ["protocol"] (merge (VDict g) (own lg)) = Some v /\ truthy v = true) /\
   (forall v, lookup ["protocol"] (own lg) = Some v -> exists s, v = VStr s /\ In s protos)).
Proof.
  intros nth protos g afs lg is Wg Vl Vi ND I [im [Him Hmm]] On.
  assert (Em : existsb gi_mod is = true) by (apply existsb_exists; eauto).
  assert (Hl : forall k, lookup [k] (merge (VDict g) (own lg)) = dget k (gw_eff g lg)).
  { intros k. rewrite <- gw_eff_merge. cbn [lookup]. destruct (dget k (gw_eff g lg)); reflexivity. }
  assert (Hid : forall z, first_leaf [own lg; VDict g] ["id"] (VInt z) <-> dget "id" (gw_eff g lg) = Some (VInt z)).
  { intros z. rewrite <- Hl. transitivity (leaf ["id"] (merge (VDict g) (own lg)) (VInt z)).
    - rewrite merge_leaves by (apply own_wf; auto). cbn [first_leaf]. tauto.
    - unfold leaf. simpl is_dict. tauto. }
  split.
  - intros [[[lg' gs] w] H]. apply gw_link_on in H; auto.
    destruct H as [ld [z [_ [_ [_ [_ [H1 [H2 [H3 [H4 [H5 [H6 _]]]]]]]]]]]]. split; [|split].
    + exists z. split; [now apply Hid|]. split; auto. split; auto. intros af Haf. destruct (H4 af Haf) as [a [E _]]. congruence.
    + destruct H6 as [v [E T]]. exists v. now rewrite Hl.
    + intros v E. destruct lg as [[ | | | | | d]|]; simpl in E; try discriminate.
      apply (H5 d eq_refl). destruct (dget "protocol" d); auto.
  - intros [[z [Hz [Z0 [Z1 Ha]]]] [[v [Hv Tv]] Hp]]. apply Hid in Hz. rewrite Hl in Hv.
    assert (Chk : gw_check (gw_eff g lg) = (true, [])).
    { unfold gw_check. cbv zeta. rewrite Hz, Hv, Tv. simpl truthy. destruct (Z.eqb_spec z 0); [contradiction|]. cbn [negb].
      destruct (Z.eqb_spec z (-1)); [contradiction|]. reflexivity. }
    assert (Pre : exists is1, gw_link_pre protos g lg is = (Some (VDict (gw_eff g lg)), is1, [], [])).
    { unfold gw_link_pre. rewrite gw_scan_spec by auto.
      destruct lg as [[ | [|] | | | | dl]|]; simpl in Vl, On; try contradiction.
      - change (gw_eff g (Some (VBool true))) with g in *. cbv iota. rewrite Chk. eexists. reflexivity.
      - rewrite merge_dicts. change (gw_eff g (Some (VDict dl))) with (mdict g dl) in *. cbv iota. rewrite Chk.
        assert (Q : check_gw_protocol protos dl = []).
        { unfold check_gw_protocol. destruct (dget "protocol" dl) as [x|] eqn:E; auto.
          destruct (Hp x) as [s [-> Hs]]; [simpl; now rewrite E|]. apply memS_true in Hs. now rewrite Hs. }
        rewrite Q. eexists. reflexivity.
      - assert (Ex : existsb asks is = true) by (apply existsb_exists; exact On). rewrite Ex.
        change (gw_eff g None) with g in *. cbv iota. rewrite Chk. eexists. reflexivity. }
    destruct (gw_link nth protos g afs lg is) as [r|e] eqn:G; [eauto|]. exfalso.
    pose proof (gateway_no_crash nth protos g afs lg is e Vl Vi G) as NC.
    unfold gw_link in G. rewrite Em in G. destruct Pre as [is1 Pre]. rewrite Pre in G.
    unfold set_fhrp_gateway in G. rewrite Hz in G.
    assert (T : truthy (VInt z) = true). { simpl. destruct (Z.eqb_spec z 0); [contradiction|reflexivity]. }
    rewrite T in G.
    assert (A : forall l d, (forall af, In af l -> nth af z <> None) -> exists d', gw_addresses nth l (VInt z) d = (d', [])).
    { induction l as [|af l IH]; intros d Hl'; cbn [gw_addresses]; [eauto|].
      destruct (nth af z) as [a|] eqn:E; [apply IH; intros; apply Hl'; right; auto|].
      exfalso. apply (Hl' af); [left; auto|auto]. }
    destruct (A afs (gw_eff g lg) Ha) as [d' Ed]. rewrite Ed in G.
    destruct (copy_link_gateway (Some (VDict d')) is1); [discriminate|]. inversion G; subst. apply NC. left; auto.
Qed.

(* ------------------------------------------------------------------ *)
(* C83: nodes *)

(* interface [i] runs a first-hop gateway protocol *)
Definition runs (i : gni) (p : string) : Prop := exists v, gn_gw i = Some v /\ v <> VBool false /\ gw_proto v = p.

Lemma drop_false_gw : forall i v, gn_gw (drop_false i) = Some v <-> gn_gw i = Some v /\ v <> VBool false.
Proof.
  intros [nm v4 gw] v. unfold drop_false. simpl.
  destruct gw as [[ | [|] | | | | ]|]; simpl; split; try (intros [H1 H2]; congruence); intros H; try discriminate;
    inversion H; subst; split; auto; discriminate.
Qed.

Lemma runs_drop : forall is p, (exists i v, In i (map drop_false is) /\ gn_gw i = Some v /\ gw_proto v = p) <-> exists i, In i is /\ runs i p.
Proof.
  intros is p. split.
  - intros [i [v [Hi [H1 H2]]]]. apply in_map_iff in Hi. destruct Hi as [j [<- Hj]]. apply drop_false_gw in H1.
    exists j. split; auto. exists v. tauto.
  - intros [i [Hi [v [H1 [H2 H3]]]]]. exists (drop_false i), v. split; [now apply in_map|]. split; auto. now apply drop_false_gw.
Qed.

Lemma unsupported_spec : forall feat is seen p,
  In p (unsupported feat seen is) <-> (exists i v, In i is /\ gn_gw i = Some v /\ gw_proto v = p) /\ ~ In p feat /\ ~ In p seen.
Proof.
  intros feat. induction is as [|i r IH]; intros seen p; cbn [unsupported].
  - split; [intros []|]. intros [[i [v [[] _]]] _].
  - destruct (gn_gw i) as [v|] eqn:E.
    + destruct (memS (gw_proto v) seen) eqn:M.
      * apply memS_true in M. rewrite IH. split.
        -- intros [[j [u [Hj H]]] H2]. split; auto. exists j, u. split; [right; auto|auto].
        -- intros [[j [u [[Hj|Hj] [H H1]]]] [H2 H3]].
           ++ subst j. exfalso. apply H3. rewrite E in H. inversion H; subst. exact M.
           ++ split; auto. exists j, u. auto.
      * apply memS_false in M. rewrite in_app_iff, IH. split.
        -- intros [H|[[j [u [Hj H]]] [H2 H3]]].
           ++ destruct (memS (gw_proto v) feat) eqn:F; [contradiction|]. apply memS_false in F. destruct H as [<-|[]].
              split; auto. exists i, v. split; [left; auto|auto].
           ++ split; [exists j, u; split; [right; auto|auto]|]. split; auto. intros C; apply H3. apply in_or_app; auto.
        -- intros [[j [u [[Hj|Hj] [H H1]]]] [H2 H3]].
           ++ subst j. left. rewrite E in H. inversion H; subst. apply memS_false in H2. rewrite H2. left; auto.
           ++ destruct (string_dec p (gw_proto v)) as [->|N].
              ** left. apply memS_false in H2. rewrite H2. left; auto.
              ** right. split; [exists j, u; auto|]. split; auto. rewrite in_app_iff. intros [C|[C|[]]]; auto.
    + rewrite IH. split.
      * intros [[j [u [Hj H]]] H2]. split; auto. exists j, u. split; [right; auto|auto].
      * intros [[j [u [[Hj|Hj] [H H1]]]] H2]; [subst j; congruence|]. split; auto. exists j, u. auto.
Qed.

Lemma unsupported_NoDup : forall feat is seen, NoDup (unsupported feat seen is).
Proof.
  intros feat. induction is as [|i r IH]; intros seen; cbn [unsupported]; [constructor|].
  destruct (gn_gw i) as [v|]; auto. destruct (memS (gw_proto v) seen); auto.
  destruct (memS (gw_proto v) feat); simpl; auto. constructor; auto.
  rewrite unsupported_spec. intros [_ [_ C]]. apply C. apply in_or_app. right; left; auto.
Qed.

(* An error is reported, once, for every protocol used on the node that its device does not support, and the
   configuration of the node is not touched further. *)
Theorem gateway_protocol_support : forall protos feat n n' e b,
  gw_node protos feat n = (n', e, b) ->
  exists ps, e = map GwUnsupported ps /\ NoDup ps /\
    (forall p, In p ps <-> (exists i, In i (gd_ifs n) /\ runs i p) /\ ~ In p feat) /\
    (ps <> [] -> gd_gw n' = gd_gw n /\ gd_mods n' = gd_mods n /\
       Forall2 (fun i j => gn_name j = gn_name i /\ gn_v4 j = gn_v4 i /\
                  gn_gw j = match gn_gw i with Some (VBool false) => None | x => x end) (gd_ifs n) (gd_ifs n')).
Proof.
  intros protos feat n n' e b H. unfold gw_node in H. cbv zeta in H.
  exists (unsupported feat [] (map drop_false (gd_ifs n))).
  split; [|split; [|split]].
  - destruct (unsupported feat [] (map drop_false (gd_ifs n))) as [|p ps]; [|inversion H; reflexivity].
    destruct (active_protos [] _); inversion H; reflexivity.
  - apply unsupported_NoDup.
  - intros p. rewrite unsupported_spec, runs_drop. simpl. tauto.
  - intros N. destruct (unsupported feat [] (map drop_false (gd_ifs n))) as [|p ps]; [congruence|].
    inversion H; subst. simpl. split; auto. split; auto. eapply F2_ext_gw; [|apply F2_map_id].
    intros i j _ ->. destruct i as [nm v4 gw]. unfold drop_false. simpl. destruct gw as [[ | [|] | | | | ]|]; auto.
Qed.

Lemma active_spec : forall is acc p, In p (active_protos acc is) <-> In p acc \/ exists i v, In i is /\ gn_gw i = Some v /\ gw_proto v = p.
Proof.
  induction is as [|i r IH]; intros acc p; cbn [active_protos].
  - split; auto. intros [H|[i [v [[] _]]]]; auto.
  - destruct (gn_gw i) as [v|] eqn:E; rewrite IH.
    + assert (S : In p (if memS (gw_proto v) acc then acc else acc ++ [gw_proto v]) <-> In p acc \/ p = gw_proto v).
      { destruct (memS (gw_proto v) acc) eqn:M.
        - apply memS_true in M. split; auto. intros [H| ->]; auto.
        - rewrite in_app_iff. simpl. intuition. }
      rewrite S. split.
      * intros [[H|H]|[j [u [Hj H]]]]; auto; right; [exists i, v; split; [left; auto|auto]|exists j, u; split; [right; auto|auto]].
      * intros [H|[j [u [[Hj|Hj] [H H1]]]]]; auto.
        -- subst j. rewrite E in H. inversion H; subst. auto.
        -- right. exists j, u; auto.
    + split.
      * intros [H|[j [u [Hj H]]]]; auto. right. exists j, u. split; [right; auto|auto].
      * intros [H|[j [u [[Hj|Hj] [H H1]]]]]; auto; [subst; congruence|]. right. exists j, u. auto.
Qed.

Lemma clean_unicast_gw : forall i, gn_gw (clean_unicast i) = gn_gw i.
Proof.
  intros [nm v4 gw]. unfold clean_unicast. simpl. destruct gw as [v|]; auto.
  destruct (_ && _ && _); reflexivity.
Qed.

Lemma active_unicast : forall is acc, active_protos acc (map clean_unicast is) = active_protos acc is.
Proof.
  induction is as [|i r IH]; intros acc; simpl; auto. rewrite clean_unicast_gw. destruct (gn_gw i); apply IH.
Qed.

(* The module is removed, with a warning, exactly when no interface runs a first-hop gateway protocol. *)
Theorem gateway_module_removed : forall protos feat n n' b,
  gw_node protos feat n = (n', [], b) ->
  (b = true <-> forall i p, In i (gd_ifs n) -> ~ runs i p) /\
  (b = true -> gd_gw n' = None /\ (forall i, In i (gd_ifs n') -> gn_gw i = None) /\
               (forall m, In m (gd_mods n') <-> In m (gd_mods n) /\ m <> "gateway")) /\
  (b = false -> gd_mods n' = gd_mods n /\
     forall d, gd_gw n = Some d -> exists d', gd_gw n' = Some d' /\
       forall k v, In (k, v) d' <-> In (k, v) d /\ exists i, In i (gd_ifs n) /\ runs i k).
Proof.
  intros protos feat n n' b H. unfold gw_node in H. cbv zeta in H.
  destruct (unsupported feat [] (map drop_false (gd_ifs n))) as [|p ps]; [|inversion H].
  rewrite active_unicast in H.
  assert (A : forall p, In p (active_protos [] (map drop_false (gd_ifs n))) <-> exists i, In i (gd_ifs n) /\ runs i p).
  { intros p. rewrite active_spec, runs_drop. simpl. tauto. }
  destruct (active_protos [] (map drop_false (gd_ifs n))) as [|p ps] eqn:E.
  - inversion H; subst. split; [|split].
    + split; auto. intros _ i p Hi R. apply (A p). eauto.
    + intros _. simpl. split; auto. split.
      * intros i Hi. apply in_map_iff in Hi. destruct Hi as [j [<- _]]. reflexivity.
      * intros m. rewrite filter_In, negb_true_iff, String.eqb_neq. tauto.
    + discriminate.
  - inversion H; subst. split; [|split].
    + split; [discriminate|]. intros C. exfalso. destruct (proj1 (A p) (or_introl eq_refl)) as [i [Hi R]]. eapply C; eauto.
    + discriminate.
    + intros _. simpl. split; auto. intros d Ed. rewrite Ed. eexists. split; [reflexivity|].
      intros k v. rewrite filter_In. cbn [fst].
      assert (M : (String.eqb k p || memS k ps)%bool = memS k (p :: ps)) by reflexivity. rewrite M. split.
      * intros [H1 H2]. split; auto. apply A. now apply memS_true.
      * intros [H1 H2]. split; auto. apply memS_true. now apply A.
Qed.

(* attributes of an interface gateway after the cleanup *)
Lemma clean_fold : forall protos p nd ks acc k, NoDup ks ->
  dget k (fold_left (fun acc k =>
               if negb (memS k protos) then acc
               else if negb (String.eqb k p) then dpop k acc
               else match dget k nd, dget k acc with
                    | Some n, Some v => dset k (merge n v) acc
                    | _, _ => acc
                    end) ks acc) =
  if memS k ks && memS k protos then
    if String.eqb k p then
      match dget k acc with
      | Some v => Some (match dget k nd with Some n => merge n v | None => v end)
      | None => None
      end
    else None
  else dget k acc.
Proof.
  intros protos p nd. induction ks as [|k0 r IH]; intros acc k ND; cbn [fold_left]; [reflexivity|].
  inversion ND as [|? ? Hn ND']; subst. rewrite IH by auto. clear IH.
  assert (Mc : memS k (k0 :: r) = (String.eqb k k0 || memS k r)%bool) by reflexivity. rewrite Mc. clear Mc.
  destruct (String.eqb_spec k k0) as [E|N].
  - subst k0. assert (M : memS k r = false) by (now apply memS_false). rewrite M. cbn [andb orb].
    destruct (memS k protos); cbn [negb]; [|reflexivity].
    destruct (String.eqb k p); cbn [negb]; [|apply dget_dpop_same].
    destruct (dget k nd) as [nv|]; destruct (dget k acc) as [v|] eqn:Ea; auto. apply dget_dset_same.
  - cbn [orb].
    assert (X : dget k (if negb (memS k0 protos) then acc else if negb (String.eqb k0 p) then dpop k0 acc
                else match dget k0 nd, dget k0 acc with Some n, Some v => dset k0 (merge n v) acc | _, _ => acc end) = dget k acc).
    { destruct (memS k0 protos); cbn [negb]; auto. destruct (String.eqb k0 p); cbn [negb]; [|apply dget_dpop_other; auto].
      destruct (dget k0 nd) as [nv|]; auto. destruct (dget k0 acc) as [v|]; auto. apply dget_dset_other; auto. }
    rewrite X. reflexivity.
Qed.

Lemma clean_params_get : forall protos nd d k, NoDup (dkeys d) ->
  dget k (clean_params protos nd d) =
  match dget k d with
  | None => None
  | Some v => if memS k protos
              then if String.eqb k (gw_proto (VDict d))
                   then Some (match dget k nd with Some n => merge n v | None => v end) else None
              else Some v
  end.
Proof.
  intros protos nd d k ND. unfold clean_params. cbv zeta. rewrite clean_fold by auto.
  destruct (dget k d) as [v|] eqn:E.
  - assert (M : memS k (dkeys d) = true) by (apply memS_true; eapply dget_Some_key; eauto). rewrite M. cbn [andb].
    destruct (memS k protos); auto.
  - assert (M : memS k (dkeys d) = false) by (apply memS_false; now apply dget_None). rewrite M. reflexivity.
Qed.

(* The interfaces of a node: the parameters of other protocols are removed, the parameters of the protocol in use are
   taken from the interface and then from the node, everything else is kept; the IPv4 address is removed exactly when
   the anycast gateway must not be combined with it. *)
Theorem gateway_interface_cleanup : forall protos feat n n' b,
  (forall i, In i (gd_ifs n) -> gw_valid (gn_gw i)) ->
  gw_node protos feat n = (n', [], b) ->
  Forall2 (fun i j =>
    gn_name j = gn_name i /\
    (forall d, gn_gw i = Some (VDict d) ->
       (gn_v4 j = if String.eqb (gw_proto (VDict d)) "anycast" &&
                     match lookup ["anycast"; "unicast"] (VDict d) with Some (VBool false) => true | _ => false end
                  then None else gn_v4 i) /\
       exists d', gn_gw j = Some (VDict d') /\
         (forall k, ~ In k protos -> dget k d' = dget k d) /\
         (forall k, In k protos -> k <> gw_proto (VDict d) -> dget k d' = None) /\
         (forall v, dget (gw_proto (VDict d)) d = Some v -> In (gw_proto (VDict d)) protos ->
            exists v', dget (gw_proto (VDict d)) d' = Some v' /\
              forall q x, leaf q v' x <->
                first_leaf (v :: match gd_gw n with Some nd => match dget (gw_proto (VDict d)) nd with Some nv => [nv] | None => [] end
                                 | None => [] end) q x)) /\
    (gn_gw i = None \/ gn_gw i = Some (VBool false) -> gn_gw j = None /\ gn_v4 j = gn_v4 i)) (gd_ifs n) (gd_ifs n').
Proof.
  intros protos feat n n' b V H. unfold gw_node in H. cbv zeta in H.
  destruct (unsupported feat [] (map drop_false (gd_ifs n))) as [|p ps]; [|inversion H].
  rewrite active_unicast in H.
  set (nd := match gd_gw n with Some d => d | None => [] end) in *.
  set (f := fun i => clean_intf protos nd (clean_unicast (drop_false i))).
  assert (F : forall i, In i (gd_ifs n) ->
    gn_name (f i) = gn_name i /\
    (forall d, gn_gw i = Some (VDict d) ->
       (gn_v4 (f i) = if String.eqb (gw_proto (VDict d)) "anycast" &&
                     match lookup ["anycast"; "unicast"] (VDict d) with Some (VBool false) => true | _ => false end
                  then None else gn_v4 i) /\ gn_gw (f i) = Some (VDict (clean_params protos nd d))) /\
    (gn_gw i = None \/ gn_gw i = Some (VBool false) -> gn_gw (f i) = None /\ gn_v4 (f i) = gn_v4 i)).
  { intros i Hi. pose proof (V i Hi) as Vi. destruct i as [nm v4 gw]. subst f. unfold drop_false. cbn [gn_gw gn_name gn_v4] in *.
    destruct gw as [[ | [|] | | | | d]|]; simpl in Vi; try contradiction.
    - split; [|split; [discriminate|intros [C|C]; discriminate]]. unfold clean_intf, clean_unicast. cbn [gn_gw gn_name].
      destruct (_ && _ && _); reflexivity.
    - split; [reflexivity|]. split; [discriminate|]. intros _. split; reflexivity.
    - assert (E : truthy (VDict d) && String.eqb (gw_proto (VDict d)) "anycast" &&
                  match lookup ["anycast"; "unicast"] (VDict d) with Some (VBool false) => true | _ => false end
                  = String.eqb (gw_proto (VDict d)) "anycast" &&
                  match lookup ["anycast"; "unicast"] (VDict d) with Some (VBool false) => true | _ => false end).
      { destruct d as [|kv r]; [|reflexivity]. reflexivity. }
      unfold clean_unicast. cbn [gn_gw gn_name gn_v4]. rewrite E. clear E.
      split; [destruct (_ && _); reflexivity|]. split; [|intros [C|C]; discriminate].
      intros d0 E0. assert (d0 = d) by congruence. subst d0. destruct (_ && _); split; reflexivity.
    - split; [reflexivity|]. split; [discriminate|]. intros _. split; reflexivity. }
  assert (X : forall i j, In i (gd_ifs n) -> j = f i ->
    gn_name j = gn_name i /\
    (forall d, gn_gw i = Some (VDict d) ->
       (gn_v4 j = if String.eqb (gw_proto (VDict d)) "anycast" &&
                     match lookup ["anycast"; "unicast"] (VDict d) with Some (VBool false) => true | _ => false end
                  then None else gn_v4 i) /\
       exists d', gn_gw j = Some (VDict d') /\
         (forall k, ~ In k protos -> dget k d' = dget k d) /\
         (forall k, In k protos -> k <> gw_proto (VDict d) -> dget k d' = None) /\
         (forall v, dget (gw_proto (VDict d)) d = Some v -> In (gw_proto (VDict d)) protos ->
            exists v', dget (gw_proto (VDict d)) d' = Some v' /\
              forall q x, leaf q v' x <->
                first_leaf (v :: match gd_gw n with Some nd => match dget (gw_proto (VDict d)) nd with Some nv => [nv] | None => [] end
                                 | None => [] end) q x)) /\
    (gn_gw i = None \/ gn_gw i = Some (VBool false) -> gn_gw j = None /\ gn_v4 j = gn_v4 i)).
  { intros i j Hi ->. destruct (F i Hi) as [F1 [F2 F3]]. split; auto. split; auto.
    intros d Ed. destruct (F2 d Ed) as [G1 G2]. split; auto. exists (clean_params protos nd d). split; auto.
    pose proof (V i Hi) as Vi. rewrite Ed in Vi. simpl in Vi.
    assert (W : wf (VDict d)) by exact Vi. apply wf_VDict in Vi. destruct Vi as [ND Wd].
    split; [|split].
    - intros k Hk. rewrite clean_params_get by auto. apply memS_false in Hk. rewrite Hk. destruct (dget k d); reflexivity.
    - intros k Hk Hn. rewrite clean_params_get by auto. apply memS_true in Hk. apply String.eqb_neq in Hn.
      rewrite Hk, Hn. destruct (dget k d); reflexivity.
    - intros v Ev Hp. rewrite clean_params_get by auto. apply memS_true in Hp. rewrite Ev, Hp, String.eqb_refl.
      eexists. split; [reflexivity|]. intros q x. subst nd. destruct (gd_gw n) as [nd|].
      + destruct (dget (gw_proto (VDict d)) nd) as [nv|].
        * rewrite merge_leaves by (apply (wf_dget d _ _ W Ev)). cbn [first_leaf]. tauto.
        * cbn [first_leaf]. tauto.
      + cbn [first_leaf dget]. tauto. }
  destruct (active_protos [] (map drop_false (gd_ifs n))) as [|p ps] eqn:E.
  - inversion H; subst. unfold gw_remove. cbn [gd_ifs].
    assert (Nr : forall i, In i (gd_ifs n) -> gn_gw i = None \/ gn_gw i = Some (VBool false)).
    { intros i Hi. destruct (gn_gw i) as [v|] eqn:Eg; auto.
      assert (D : v = VBool false \/ v <> VBool false).
      { destruct v as [ | [|] | | | | ]; auto; right; discriminate. }
      destruct D as [->|D]; auto. exfalso.
      assert (C : In (gw_proto v) (active_protos [] (map drop_false (gd_ifs n)))).
      { apply active_spec. right. exists (drop_false i), v. split; [now apply in_map|]. split; auto. apply drop_false_gw. auto. }
      rewrite E in C. exact C. }
    rewrite !map_map. eapply F2_ext_gw; [|apply F2_map_id]. intros i j Hi ->. destruct (F i Hi) as [F1 [F2 F3]].
    destruct (F3 (Nr i Hi)) as [G1 G2]. cbn [gn_name gn_gw gn_v4]. split; [exact F1|]. split.
    + intros d Ed. exfalso. destruct (Nr i Hi); congruence.
    + intros _. split; auto.
  - inversion H; subst. cbn [gd_ifs]. rewrite !map_map. eapply F2_ext_gw; [|apply F2_map_id].
    intros i j Hi Ej. apply X; auto.
Qed.

(* A parameter set on the node is ignored when the protocol has a default value for it: the global default is part of the
   interface data and takes precedence. *)
Theorem gateway_node_parameter_refuted :
  exists nth protos g afs lg is d n n',
    gw_link nth protos g afs lg is = Ok (Some (VDict d), map gn_gw (gd_ifs n), []) /\
    lookup ["vrrp"; "group"] (own lg) = None /\ Forall (fun i => lookup ["vrrp"; "group"] (own (gi_gw i)) = None) is /\
    option_map (fun p => lookup ["vrrp"; "group"] (VDict p)) (gd_gw n) = Some (Some (VInt 5)) /\
    gw_node protos protos n = (n', [], false) /\
    map (fun i => option_map (lookup ["vrrp"; "group"]) (gn_gw i)) (gd_ifs n') = [Some (Some (VInt 1))].
Proof.
  exists nth_sample, ["anycast"; "vrrp"], gw_globals, ["ipv4"], (Some (VDict [("protocol", VStr "vrrp")])),
         [mk_gwi "r1" false true None], (dset "protocol" (VStr "vrrp") gw_globals ++ [("ipv4", VStr "172.16.0.254/24")]).
  exists (mk_gnode (Some [("vrrp", VDict [("group", VInt 5)])]) ["gateway"]
            [mk_gni "eth1" None (Some (VDict (dset "protocol" (VStr "vrrp") gw_globals ++ [("ipv4", VStr "172.16.0.254/24")])))]).
  eexists. split; [vm_compute; reflexivity|]. split; [reflexivity|]. split; [repeat constructor|].
  split; [reflexivity|]. split; vm_compute; reflexivity.
Qed.

Example gateway_node_case :
  let gw p u := Some (VDict [("protocol", VStr p); ("anycast", VDict [("unicast", VBool u)]);
                             ("vrrp", VDict [("group", VInt 1)]); ("ipv4", VStr "10.0.0.1/24")]) in
  let n := mk_gnode (Some [("anycast", VDict [("mac", VStr "m")]); ("vrrp", VDict [("priority", VInt 30)])]) ["ospf"; "gateway"]
             [mk_gni "eth1" (Some (VStr "10.0.0.2/24")) (gw "anycast" false); mk_gni "eth2" (Some (VStr "10.0.1.2/24")) (Some (VBool false));
              mk_gni "eth3" (Some (VStr "10.0.2.2/24")) None] in
  gw_node ["anycast"; "vrrp"] ["anycast"] n
  = (mk_gnode (Some [("anycast", VDict [("mac", VStr "m")])]) ["ospf"; "gateway"]
       [mk_gni "eth1" None (Some (VDict [("protocol", VStr "anycast");
                                         ("anycast", VDict [("mac", VStr "m"); ("unicast", VBool false)]); ("ipv4", VStr "10.0.0.1/24")]));
        mk_gni "eth2" (Some (VStr "10.0.1.2/24")) None; mk_gni "eth3" (Some (VStr "10.0.2.2/24")) None], [], false)
  /\ snd (fst (gw_node ["anycast"; "vrrp"] ["vrrp"] n)) = [GwUnsupported "anycast"]
  /\ gw_node ["anycast"; "vrrp"] ["vrrp"] (mk_gnode (Some []) ["ospf"; "gateway"] [mk_gni "eth3" None (Some (VBool false))])
     = (mk_gnode None ["ospf"] [mk_gni "eth3" None None], [], true).
Proof. vm_compute. repeat split. Qed.

(* ------------------------------------------------------------------ *)
(* C84: reserved ids *)

(* the gateway id given in a gateway attribute *)
Definition gives_id (o : option val) (z : Z) : Prop := lookup ["id"] (own o) = Some (VInt z).

Lemma reserve_id_used : forall z v x, In x (iv_used (snd (reserve_id z v))) <-> x = z \/ In x (iv_used v).
Proof.
  intros z v x. unfold reserve_id, is_id_used. destruct (memZ z (iv_used v)) eqn:M; simpl.
  - apply memZ_true in M. split; auto. intros [->|H]; auto.
  - split; intros [H|H]; auto.
Qed.

Lemma reserve_id_shape : forall z v, iv_next (snd (reserve_id z v)) = iv_next v /\ iv_max (snd (reserve_id z v)) = iv_max v.
Proof. intros z v. unfold reserve_id. destruct (is_id_used v z); split; reflexivity. Qed.

Lemma process_gw_id_spec : forall req id v e v', process_gw_id req id v = (e, v') ->
  iv_next v' = iv_next v /\ iv_max v' = iv_max v /\
  forall x, In x (iv_used v') <-> In x (iv_used v) \/ (id = Some (VInt x) /\ (0 <= x)%Z).
Proof.
  intros req id v e v' H. unfold process_gw_id in H.
  destruct id as [[ | b | z | s | l | d]|];
    try (inversion H; subst; split; [reflexivity|split; [reflexivity|]]; intros x; split; [auto|intros [A|[A _]]; [auto|discriminate]]).
  inversion H; subst. destruct (Z.ltb_spec z 0) as [L|L].
  - split; [reflexivity|split; [reflexivity|]]. intros x. split; auto. intros [A|[A B]]; auto. inversion A; subst. lia.
  - destruct (reserve_id_shape z v) as [S1 S2]. split; auto. split; auto. intros x. rewrite reserve_id_used. split.
    + intros [->|A]; auto.
    + intros [A|[A B]]; auto. inversion A; auto.
Qed.

Lemma process_all_spec : forall l v e v', process_all l v = (e, v') ->
  iv_next v' = iv_next v /\ iv_max v' = iv_max v /\
  forall x, In x (iv_used v') <-> In x (iv_used v) \/ exists o, In o l /\ gives_id o x /\ (0 <= x)%Z.
Proof.
  induction l as [|o r IH]; intros v e v' H; cbn [process_all] in H.
  - inversion H; subst. split; auto. split; auto. intros x. split; auto. intros [A|[o [[] _]]]; auto.
  - destruct (match o with Some (VDict d) => process_gw_id false (dget "id" d) v | _ => ([], v) end) as [e1 v1] eqn:P.
    destruct (process_all r v1) as [e2 v2] eqn:Q. inversion H; subst. apply IH in Q. destruct Q as [Q1 [Q2 Q3]].
    assert (S : iv_next v1 = iv_next v /\ iv_max v1 = iv_max v /\
                forall x, In x (iv_used v1) <-> In x (iv_used v) \/ (gives_id o x /\ (0 <= x)%Z)).
    { destruct o as [[ | b | z | s | l | d]|];
        try (inversion P; subst; split; [reflexivity|split; [reflexivity|]]; intros x; unfold gives_id; simpl;
             split; [auto|intros [A|[A _]]; [auto|discriminate]]).
      apply process_gw_id_spec in P. destruct P as [P1 [P2 P3]]. split; auto. split; auto. intros x. rewrite P3.
      unfold gives_id. simpl. destruct (dget "id" d); split; intros [A|[A B]]; auto; discriminate. }
    destruct S as [S1 [S2 S3]]. split; [congruence|]. split; [congruence|]. intros x. rewrite Q3, S3. split.
    + intros [[A|A]|[o' [A B]]]; auto; right; [exists o; split; [left; auto|auto]|exists o'; split; [right; auto|auto]].
    + intros [A|[o' [[A|A] B]]]; auto; [subst o'; auto|]. right. exists o'. auto.
Qed.

(* The ids reserved for gateways are the non-negative ids given globally, on links and on VLANs; node identifiers never
   use them, and a user-defined node id that does is reported. *)
Theorem gateway_ids_reserved : forall protos g links vlans e v ns,
  gw_init protos g links vlans empty_idvar = (e, v) ->
  (g <> None /\ own g <> VDict []) ->
  let reserved := fun z => (0 <= z)%Z /\ exists o, In o (g :: links ++ vlans) /\ gives_id o z in
  (forall z, In z (iv_used v) <-> reserved z) /\
  (forall l, node_ids ns v = Ok l -> forall nm x, In (nm, x) l -> ~ reserved x) /\
  (forall nm z, In (nm, Some z) ns -> reserved z -> exists names, node_ids ns v = Err (DuplicateStatic names)).
Proof.
  intros protos g links vlans e v ns H [Hg1 Hg2] reserved.
  assert (R : iv_next v = None /\ iv_max v = 0%Z /\ forall z, In z (iv_used v) <-> reserved z).
  { unfold gw_init in H. destruct g as [[ | | | | | d]|]; simpl in Hg2; try congruence.
    destruct d as [|kv d]; [congruence|].
    destruct (process_gw_id true (dget "id" (kv :: d)) empty_idvar) as [e1 v1] eqn:P.
    destruct (process_all (links ++ vlans) v1) as [e2 v2] eqn:Q. inversion H; subst.
    apply process_gw_id_spec in P. apply process_all_spec in Q. destruct P as [P1 [P2 P3]]. destruct Q as [Q1 [Q2 Q3]].
    split; [rewrite Q1; exact P1|]. split; [rewrite Q2; exact P2|]. intros z. rewrite Q3, P3. unfold reserved. cbn [iv_used empty_idvar].
    assert (G : gives_id (Some (VDict (kv :: d))) z <-> dget "id" (kv :: d) = Some (VInt z)).
    { unfold gives_id. cbn [own lookup]. destruct (dget "id" (kv :: d)); tauto. }
    split.
    - intros [[[]|[A B]]|[o [A [B C]]]].
      + split; auto. exists (Some (VDict (kv :: d))). split; [left; auto|]. now apply G.
      + split; auto. exists o. split; [right; auto|auto].
    - intros [A [o [[B|B] C]]].
      + subst o. left. right. split; auto. now apply G.
      + right. exists o. auto. }
  destruct R as [R1 [R2 R3]].
  assert (E : v = extend_id_set (iv_used v) empty_idvar).
  { destruct v as [u nx mx]. simpl in *. unfold extend_id_set. simpl. rewrite app_nil_r. congruence. }
  split; [exact R3|]. split.
  - intros l Hl nm x Hx C. rewrite E in Hl. apply node_ids_unique in Hl. destruct Hl as [_ [_ [_ Hr]]].
    apply (Hr (nm, x) Hx). simpl. now apply R3.
  - intros nm z Hz C. rewrite E. apply node_ids_duplicate_reported. intros [_ D].
    apply (D z); [|now apply R3]. clear - Hz. induction ns as [|[a [i|]] r IH]; simpl in *; [contradiction| |].
    + destruct Hz as [Hz|Hz]; [inversion Hz; auto|right; auto].
    + destruct Hz as [Hz|Hz]; [inversion Hz|auto].
Qed.

Example gateway_ids_case :
  let r := gw_init ["anycast"; "vrrp"] (Some (VDict [("id", VInt 1); ("protocol", VStr "vrrp")]))
             [None; Some (VBool true); Some (VDict [("id", VInt 3)]); Some (VDict [("id", VInt (-2))])]
             [Some (VDict [("id", VInt 3)]); Some (VDict [("id", VStr "x")])] empty_idvar in
  fst r = [GwType] /\ node_ids [("r1", None); ("r2", None); ("r3", Some 5%Z)] (snd r) = Ok [("r1", 2%Z); ("r2", 4%Z); ("r3", 5%Z)]
  /\ node_ids [("r1", None); ("r2", Some 3%Z)] (snd r) = Err (DuplicateStatic ["r2"]).
Proof. vm_compute. repeat split. Qed.

Print Assumptions gateway_where_wanted.
Print Assumptions gateway_settings.
Print Assumptions gateway_address_shared.
Print Assumptions gateway_off_on_link.
Print Assumptions gateway_no_warning.
Print Assumptions gateway_no_crash.
Print Assumptions gateway_link_accepted.
Print Assumptions gateway_protocol_support.
Print Assumptions gateway_module_removed.
Print Assumptions gateway_interface_cleanup.
Print Assumptions gateway_node_parameter_refuted.
Print Assumptions gateway_ids_reserved.
