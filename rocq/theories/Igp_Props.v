(* Properties of interior routing protocols (C76 - C80). *)
From Coq Require Import String ZArith Lia Bool List.
From Verif Require Import Base Igp_Model.
Import ListNotations.
Local Open Scope string_scope.
Local Open Scope list_scope.

(* ---- specification ---- *)

(* two states of an interface: everything but the protocol data is the same *)
Definition same_intf (i j : igi) : Prop :=
  ii_name i = ii_name j /\ ii_role i = ii_role j /\ ii_type i = ii_type j /\ ii_v4 i = ii_v4 j /\ ii_v6 i = ii_v6 j /\
  ii_dhcp4 i = ii_dhcp4 j /\ ii_dhcp6 i = ii_dhcp6 j /\ ii_vrf i = ii_vrf j /\ ii_ngbs i = ii_ngbs j /\ ii_bfd_off i = ii_bfd_off j.

(* the address attribute has a usable value *)
Definition usable (a : option iaddr) : Prop :=
  match a with Some (IBool true) => True | Some (IAddr s) => s <> "" | _ => False end.

(* the user wants the protocol on the interface, and the interface has an address *)
Definition enabled (k : igp_kind) (i : igi) : Prop :=
  ii_role i <> "external" /\ ii_proto i <> PFalse /\
  (ii_v4 i <> None \/ ii_v6 i <> None \/ ii_dhcp4 i = true \/ ii_dhcp6 i = true) /\
  (k_need_addr k = true -> usable (ii_v4 i) \/ usable (ii_v6 i)).

(* configured passive flag *)
Definition conf_passive (i : igi) : option bool := match ii_proto i with PSome d => pd_passive d | _ => None end.
Definition conf_ntype (i : igi) : option string := match ii_proto i with PSome d => pd_ntype d | _ => None end.

(* the interface should be passive; [running]: nodes using the protocol *)
Definition should_be_passive (running : string -> bool) (i : igi) : Prop :=
  match conf_passive i with
  | Some b => b = true
  | None => ii_role i = "passive" \/ ii_role i = "external" \/ ii_type i = "stub" \/
            (ii_role i = "stub" /\ forall n, In n (ii_ngbs i) -> running n = false)
  end.

(* the network type of the interface *)
Definition wanted_ntype (k : igp_kind) (i : igi) : option string :=
  match k_types k with
  | None => conf_ntype i
  | Some _ => match conf_ntype i with
              | Some t => if String.eqb t "" then None else Some t
              | None => match ii_ngbs i with [_] => Some "point-to-point" | _ => None end
              end
  end.

(* ---- basic lemmas ---- *)

Lemma same_refl : forall i, same_intf i i.
Proof. intro i. repeat split. Qed.

Lemma same_trans : forall a b c, same_intf a b -> same_intf b c -> same_intf a c.
Proof. unfold same_intf. intros a b c (?&?&?&?&?&?&?&?&?&?) (?&?&?&?&?&?&?&?&?&?). repeat split; congruence. Qed.

Lemma same_set : forall i p, same_intf i (set_proto_data i p).
Proof. intros i p. repeat split. Qed.

Lemma proto_set : forall i p, ii_proto (set_proto_data i p) = p.
Proof. reflexivity. Qed.

Lemma set_set : forall i p q, set_proto_data (set_proto_data i p) q = set_proto_data i q.
Proof. reflexivity. Qed.

Lemma set_same : forall i, set_proto_data i (ii_proto i) = i.
Proof. intros []; reflexivity. Qed.

(* the bfd functions leave the rest of protocol data alone *)
Definition bfd_only (i j : igi) : Prop :=
  same_intf i j /\ (ii_proto i = PFalse <-> ii_proto j = PFalse) /\ conf_passive i = conf_passive j /\ conf_ntype i = conf_ntype j.

Lemma bfd_only_refl : forall i, bfd_only i i.
Proof. intro i. split; [apply same_refl|]. repeat split; auto. Qed.

Lemma close_bfd_only : forall i b, ii_proto i <> PFalse -> bfd_only i (close_proto i (set_bfd (proto_data i) b)).
Proof.
  intros i b H. unfold close_proto. split; [apply same_set|].
  unfold conf_passive, conf_ntype. rewrite proto_set. unfold proto_data, set_bfd, pd_is_empty.
  destruct (ii_proto i) as [| |d] eqn:E; [| contradiction |].
  - cbn [pd_bfd pd_passive pd_ntype pd_other pd_empty]. destruct b as [b|]; repeat split; auto; discriminate.
  - cbn [pd_bfd pd_passive pd_ntype pd_other].
    destruct b as [b|]; [repeat split; auto; discriminate|].
    destruct (pd_passive d) as [x|]; [repeat split; auto; discriminate|].
    destruct (pd_ntype d) as [x|]; [repeat split; auto; discriminate|].
    destruct (pd_other d); repeat split; auto; discriminate.
Qed.

Lemma bfd_intf_only : forall f i, bfd_only i (bfd_intf f i).
Proof.
  intros f i. unfold bfd_intf. destruct (ii_proto i) eqn:E; try apply close_bfd_only; try congruence. apply bfd_only_refl.
Qed.

Lemma mbfd_intf_only : forall nb i, bfd_only i (mbfd_intf nb i).
Proof.
  intros nb i. unfold mbfd_intf. destruct (ii_proto i) eqn:E; try apply close_bfd_only; try congruence. apply bfd_only_refl.
Qed.

Lemma F2_map_r : forall A B (R : A -> B -> Prop) f l, (forall x, R x (f x)) -> Forall2 R l (map f l).
Proof. intros A B R f l H. induction l; cbn [map]; constructor; auto. Qed.

Lemma F2_id : forall A (R : A -> A -> Prop) l, (forall x, R x x) -> Forall2 R l l.
Proof. intros A R l H. induction l; constructor; auto. Qed.

Lemma igp_bfd_only : forall proto n b af is, igp_bfd proto n = (b, af, is) -> Forall2 bfd_only (in_intfs n) is.
Proof.
  intros proto n b af is. unfold igp_bfd.
  destruct (String.eqb proto "isis").
  - unfold multiprotocol_bfd. destruct (in_bfd n) as [x|].
    + destruct (if memS "bfd" (in_modules n) then x else BfdFlag false) as [[|]|v4 v6]; intro H; injection H as _ _ <-;
        apply F2_map_r; intro; apply mbfd_intf_only.
    + intro H. injection H as _ _ <-. apply F2_id. apply bfd_only_refl.
  - destruct (String.eqb proto "eigrp").
    + intro H. injection H as _ _ <-. apply F2_id. apply bfd_only_refl.
    + unfold bfd_link_state. destruct (in_bfd n) as [x|]; intro H; injection H as _ _ <-.
      * apply F2_map_r. intro. apply bfd_intf_only.
      * apply F2_id. apply bfd_only_refl.
Qed.

Lemma bfd_only_enabled : forall k i j, bfd_only i j -> (enabled k i <-> enabled k j).
Proof.
  intros k i j (S & P & _). destruct S as (Hn & Hr & Ht & H4 & H6 & D4 & D6 & Hv & Hg & Hb).
  unfold enabled. rewrite <- Hr, <- H4, <- H6, <- D4, <- D6, P. tauto.
Qed.

Lemma bfd_only_passive : forall rn i j, bfd_only i j -> (should_be_passive rn i <-> should_be_passive rn j).
Proof.
  intros rn i j (S & _ & P & _). destruct S as (Hn & Hr & Ht & H4 & H6 & D4 & D6 & Hv & Hg & Hb).
  unfold should_be_passive. rewrite <- P, <- Hr, <- Ht, <- Hg. tauto.
Qed.

Lemma bfd_only_ntype : forall k i j, bfd_only i j -> wanted_ntype k i = wanted_ntype k j.
Proof.
  intros k i j (S & _ & _ & P). destruct S as (Hn & Hr & Ht & H4 & H6 & D4 & D6 & Hv & Hg & Hb).
  unfold wanted_ntype. rewrite <- P, <- Hg. reflexivity.
Qed.

(* ---- one interface ---- *)

Lemma addr_truthy_usable : forall a, addr_truthy a = true <-> usable a.
Proof.
  intros [[[|]|s]|]; cbn [addr_truthy usable]; try (split; [discriminate|tauto]); [tauto|].
  destruct s; split; [discriminate | intro H; exfalso; now apply H | discriminate | reflexivity].
Qed.

Lemma conf_passive_data : forall i, ii_proto i <> PFalse -> conf_passive i = pd_passive (proto_data i).
Proof. intros i H. unfold conf_passive, proto_data. destruct (ii_proto i); auto. Qed.

Lemma conf_ntype_data : forall i, conf_ntype i = pd_ntype (proto_data i).
Proof. intros i. unfold conf_ntype, proto_data. destruct (ii_proto i); auto. Qed.

Lemma passive_flag_spec : forall rn i, passive_flag rn i = true <-> should_be_passive rn i.
Proof.
  intros rn i. unfold passive_flag, should_be_passive.
  assert (E : conf_passive i = pd_passive (proto_data i)) by (unfold conf_passive, proto_data; destruct (ii_proto i); auto).
  rewrite E. destruct (pd_passive (proto_data i)) as [b|]; [tauto|].
  destruct (String.eqb_spec (ii_role i) "passive") as [H1|H1]; cbn [orb]; [tauto|].
  destruct (String.eqb_spec (ii_role i) "external") as [H2|H2]; cbn [orb]; [tauto|].
  destruct (String.eqb_spec (ii_type i) "stub") as [H3|H3]; [tauto|].
  destruct (String.eqb_spec (ii_role i) "stub") as [H4|H4]; cbn [negb].
  - unfold is_true_stub. rewrite forallb_forall. split.
    + intro H. right; right; right. split; auto. intros n Hn. apply H in Hn. now apply negb_true_iff.
    + intros [H|[H|[H|[_ H]]]]; try contradiction. intros n Hn. apply negb_true_iff. auto.
  - split; [discriminate|]. intros [H|[H|[H|[H _]]]]; contradiction.
Qed.

(* the result of processing an interface: no protocol data, or protocol data with the passive flag and network type *)
Definition igp_result (k : igp_kind) (rn : string -> bool) (i j : igi) : Prop :=
  same_intf i j /\
  (ii_proto j = PNone \/
   exists d b, ii_proto j = PSome d /\ pd_passive d = Some b /\ (b = true <-> should_be_passive rn i) /\ pd_ntype d = wanted_ntype k i).

Definition skipped (k : igp_kind) (i : igi) : Prop :=
  ii_role i = "external" \/ ii_proto i = PFalse \/ (k_need_addr k = true /\ ~ usable (ii_v4 i) /\ ~ usable (ii_v6 i)).

Lemma skip_test : forall k i,
  external i || (k_need_addr k && negb (addr_truthy (ii_v4 i) || addr_truthy (ii_v6 i))) = true <-> skipped k i.
Proof.
  intros k i. rewrite orb_true_iff, andb_true_iff, negb_true_iff, orb_false_iff. unfold external, skipped.
  rewrite orb_true_iff, String.eqb_eq.
  assert (A : forall a, addr_truthy a = false <-> ~ usable a).
  { intro a. rewrite <- addr_truthy_usable. destruct (addr_truthy a); split; congruence. }
  rewrite !A.
  assert (P : (match ii_proto i with PFalse => true | _ => false end) = true <-> ii_proto i = PFalse)
    by (destruct (ii_proto i); split; congruence).
  rewrite P. tauto.
Qed.

Lemma igp_intf_spec : forall k np rn i j e, igp_intf k np rn i = (j, e) ->
  igp_result k rn i j /\ (ii_proto j = PNone <-> skipped k i) /\ ii_proto j <> PFalse.
Proof.
  intros k np rn i j e. unfold igp_intf.
  destruct (external i || (k_need_addr k && negb (addr_truthy (ii_v4 i) || addr_truthy (ii_v6 i)))) eqn:S.
  - intro H. injection H as <- _. apply skip_test in S.
    split; [|split; [split; auto | rewrite proto_set; discriminate]].
    split; [apply same_set | left; reflexivity].
  - assert (NS : ~ skipped k i) by (rewrite <- skip_test, S; discriminate).
    assert (NF : ii_proto i <> PFalse) by (intro F; apply NS; right; left; exact F).
    set (d := proto_data i).
    set (d1 := mk_pd (pd_bfd d) (Some (passive_flag rn i)) (pd_ntype d) (pd_other d)).
    assert (PJ : passive rn i = set_proto_data i (PSome d1)) by reflexivity.
    assert (PD : proto_data (passive rn i) = d1) by reflexivity.
    assert (NT : conf_ntype i = pd_ntype d) by apply conf_ntype_data.
    assert (B : forall t, wanted_ntype k i = t ->
       igp_result k rn i (set_proto_data i (PSome (mk_pd (pd_bfd d) (Some (passive_flag rn i)) t (pd_other d)))) /\
       (ii_proto (set_proto_data i (PSome (mk_pd (pd_bfd d) (Some (passive_flag rn i)) t (pd_other d)))) = PNone <-> skipped k i) /\
       ii_proto (set_proto_data i (PSome (mk_pd (pd_bfd d) (Some (passive_flag rn i)) t (pd_other d)))) <> PFalse).
    { intros t W. split; [|split; [split; [rewrite proto_set; discriminate | intro; contradiction] | rewrite proto_set; discriminate]].
      split; [apply same_set | right]. eexists. exists (passive_flag rn i). rewrite proto_set. split; [reflexivity|].
      cbn [pd_passive pd_ntype]. split; [reflexivity|]. split; [apply passive_flag_spec | now rewrite W]. }
    unfold wanted_ntype in B. rewrite NT in B.
    destruct (k_types k) as [ts|].
    + unfold network_type. rewrite PD.
      change (pd_ntype d1) with (pd_ntype d). change (pd_bfd d1) with (pd_bfd d).
      change (pd_passive d1) with (Some (passive_flag rn i)). change (pd_other d1) with (pd_other d).
      destruct (pd_ntype d) as [t|] eqn:T.
      * destruct t as [|c t].
        -- intro H. injection H as <- _. rewrite PJ, set_set. apply B. reflexivity.
        -- destruct (memS (String c t) ts); intro H; injection H as <- _; rewrite PJ; unfold d1; apply B; reflexivity.
      * change (ii_ngbs (passive rn i)) with (ii_ngbs i).
        destruct (Nat.eqb_spec (length (ii_ngbs i)) 1) as [L|L].
        -- intro H. injection H as <- _. rewrite PJ, set_set. apply B.
           destruct (ii_ngbs i) as [|x [|y r]]; try discriminate L. reflexivity.
        -- intro H. injection H as <- _. rewrite PJ. unfold d1. apply B.
           destruct (ii_ngbs i) as [|x [|y r]]; auto. exfalso. apply L. reflexivity.
    + intro H. injection H as <- _. rewrite PJ. unfold d1. apply B. reflexivity.
Qed.

(* ---- VRF instances ---- *)

Definition opt_str_eqb (a b : option string) : bool :=
  match a, b with Some x, Some y => String.eqb x y | None, None => true | _, _ => false end.

Lemma opt_str_eqb_eq : forall a b, opt_str_eqb a b = true <-> a = b.
Proof.
  intros [x|] [y|]; cbn [opt_str_eqb]; try (split; congruence).
  rewrite String.eqb_eq. split; congruence.
Qed.

(* interfaces with protocol data in a VRF *)
Definition vrf_sel (v : string) (is : list igi) : list igi :=
  filter (fun i => in_proto i && opt_str_eqb (ii_vrf i) (Some v)) is.

Definition st_active (s : option vst) : bool :=
  match s with Some VTrue => true | Some (VData (Some b) _) => b | _ => false end.
Definition st_intfs (s : option vst) : list igi := match s with Some (VData _ l) => l | _ => [] end.

Lemma vrf_intfs_spec : forall rn is vs vs' js, vrf_intfs rn vs is = (vs', js) ->
  Forall2 (fun i j => j = match ii_vrf i with Some _ => set_proto_data i PNone | None => i end) is js /\
  forall v, dget v vs' =
    match vrf_sel v is with
    | [] => dget v vs
    | _ => match dget v vs with
           | Some VFalse => Some VFalse
           | s => Some (VData (Some (st_active s || existsb (fun i => existsb rn (ii_ngbs i)) (vrf_sel v is))) (st_intfs s ++ vrf_sel v is))
           end
    end.
Proof.
  intros rn is. induction is as [|i r IH]; intros vs vs' js.
  - intro H. injection H as <- <-. split; [constructor|]. reflexivity.
  - cbn [vrf_intfs]. destruct (vrf_intf rn vs i) as [vs1 j] eqn:V. destruct (vrf_intfs rn vs1 r) as [vs2 q] eqn:R.
    intro H. injection H as <- <-. destruct (IH _ _ _ R) as [IH1 IH2].
    assert (J : j = match ii_vrf i with Some _ => set_proto_data i PNone | None => i end).
    { unfold vrf_intf in V. destruct (ii_proto i) as [| |d] eqn:P.
      - injection V as _ <-. destruct (ii_vrf i); auto. rewrite <- P. symmetry. apply set_same.
      - destruct (ii_vrf i) as [w|]; [|injection V as _ <-; reflexivity].
        destruct (match dget w vs with Some s => s | None => VNone end); injection V as _ <-; reflexivity.
      - destruct (ii_vrf i) as [w|]; [|injection V as _ <-; reflexivity].
        destruct (match dget w vs with Some s => s | None => VNone end); injection V as _ <-; reflexivity. }
    split; [constructor; auto|].
    intro v. rewrite IH2. clear IH IH1 IH2 R J q vs2.
    unfold vrf_sel. cbn [filter]. fold (vrf_sel v r).
    unfold vrf_intf, in_proto in *.
    destruct (ii_vrf i) as [w|] eqn:W.
    2:{ assert (E : vs1 = vs) by (destruct (ii_proto i); injection V as <- _; reflexivity).
        cbn [opt_str_eqb]. rewrite andb_false_r, E. reflexivity. }
    cbn [opt_str_eqb].
    destruct (ii_proto i) as [| |d] eqn:P.
    { injection V as <- _. reflexivity. }
    all: cbn [andb]; destruct (String.eqb_spec w v) as [->|N].
    all: try (assert (E : dget v vs1 = dget v vs) by
       (destruct (match dget w vs with Some s => s | None => VNone end); injection V as <- _;
        try reflexivity; apply dget_dset_other; congruence);
       rewrite E; reflexivity).
    all: destruct (dget v vs) as [[| | |a l]|] eqn:G; injection V as <- _.
    all: try (rewrite dget_dset_same; cbn [st_active st_intfs existsb app orb];
              destruct (vrf_sel v r) as [|x y]; cbn [existsb app]; rewrite ?orb_false_r, ?orb_assoc; try reflexivity).
    all: try (rewrite <- app_assoc; cbn [app]; destruct a as [b|]; reflexivity).
    all: try (destruct a as [b|]; reflexivity).
    all: try (rewrite G; destruct (vrf_sel v r); reflexivity).
Qed.

Lemma dget_map_snd : forall A B (f : A -> B) k (d : dict A),
  dget k (map (fun kv => (fst kv, f (snd kv))) d) = match dget k d with Some x => Some (f x) | None => None end.
Proof.
  intros A B f k d. induction d as [|[k' x] r IH]; [reflexivity|]. cbn [map dget fst snd].
  destruct (String.eqb k k'); auto.
Qed.

(* ---- nodes ---- *)

Definition usable_b (a : option iaddr) : bool :=
  match a with Some (IBool true) => true | Some (IAddr s) => negb (String.eqb s "") | _ => false end.
Definition enabled_b (k : igp_kind) (i : igi) : bool :=
  negb (String.eqb (ii_role i) "external") && match ii_proto i with PFalse => false | _ => true end &&
  match ii_v4 i, ii_v6 i with None, None => ii_dhcp4 i || ii_dhcp6 i | _, _ => true end &&
  (negb (k_need_addr k) || usable_b (ii_v4 i) || usable_b (ii_v6 i)).

Lemma usable_b_iff : forall a, usable_b a = true <-> usable a.
Proof.
  intros [[[|]|s]|]; cbn [usable_b usable]; try (split; [discriminate | tauto]); try tauto.
  rewrite negb_true_iff, String.eqb_neq. tauto.
Qed.

Lemma enabled_b_iff : forall k i, enabled_b k i = true <-> enabled k i.
Proof.
  intros k i. unfold enabled_b, enabled. rewrite !andb_true_iff, !orb_true_iff, !negb_true_iff, String.eqb_neq, !usable_b_iff.
  assert (P : (match ii_proto i with PFalse => false | _ => true end) = true <-> ii_proto i <> PFalse)
    by (destruct (ii_proto i); split; congruence).
  assert (A : (match ii_v4 i, ii_v6 i with None, None => ii_dhcp4 i || ii_dhcp6 i | _, _ => true end) = true <->
              ii_v4 i <> None \/ ii_v6 i <> None \/ ii_dhcp4 i = true \/ ii_dhcp6 i = true).
  { destruct (ii_v4 i), (ii_v6 i); try (split; [intros _; (left; congruence) || (right; left; congruence) | reflexivity]).
    rewrite orb_true_iff. split; [tauto|]. intros [H|[H|H]]; congruence || tauto. }
  assert (K : k_need_addr k = false \/ k_need_addr k = true) by (destruct (k_need_addr k); auto).
  rewrite P, A. destruct K as [K|K]; rewrite K; intuition congruence.
Qed.

Definition prep (k : igp_kind) (rn : string -> bool) (i p : igi) : Prop :=
  igp_result k rn i p /\ (in_proto p = true <-> enabled k i) /\ ii_proto p <> PFalse.

Lemma has_addr_spec : forall i, has_addr i = true <-> (ii_v4 i <> None \/ ii_v6 i <> None \/ ii_dhcp4 i = true \/ ii_dhcp6 i = true).
Proof.
  intro i. unfold has_addr.
  destruct (ii_v4 i), (ii_v6 i); try (split; [intros _; (left; congruence) || (right; left; congruence) | reflexivity]).
  rewrite orb_true_iff. split; [tauto|]. intros [H|[H|H]]; congruence || tauto.
Qed.

Lemma not_skipped : forall k i, ~ skipped k i <-> ii_role i <> "external" /\ ii_proto i <> PFalse /\ (k_need_addr k = true -> usable (ii_v4 i) \/ usable (ii_v6 i)).
Proof.
  intros k i. unfold skipped.
  assert (D : forall a, usable a \/ ~ usable a).
  { intro a. rewrite <- usable_b_iff. destruct (usable_b a); [left|right]; congruence. }
  destruct (D (ii_v4 i)), (D (ii_v6 i)); tauto.
Qed.

Lemma prep_one : forall k np rn i0 i, bfd_only i0 i -> prep k rn i0 (remove_unaddressed (fst (igp_intf k np rn i))).
Proof.
  intros k np rn i0 i B. destruct (igp_intf k np rn i) as [j e] eqn:E. cbn [fst].
  destruct (igp_intf_spec _ _ _ _ _ _ E) as [[S R] [N F]].
  assert (T : same_intf i0 j) by (eapply same_trans; [exact (proj1 B) | exact S]).
  assert (R' : ii_proto j = PNone \/ exists d b, ii_proto j = PSome d /\ pd_passive d = Some b /\
                 (b = true <-> should_be_passive rn i0) /\ pd_ntype d = wanted_ntype k i0).
  { destruct R as [R|(d & b & R1 & R2 & R3 & R4)]; [left; exact R | right].
    exists d, b. rewrite (bfd_only_passive _ _ _ B), (bfd_only_ntype k _ _ B). auto. }
  assert (EN : enabled k i0 <-> ~ skipped k i /\ has_addr i = true).
  { rewrite (bfd_only_enabled k _ _ B), not_skipped, has_addr_spec. unfold enabled. tauto. }
  assert (HA : has_addr j = has_addr i).
  { destruct S as (_ & _ & _ & H4 & H6 & D4 & D6 & _). unfold has_addr. rewrite H4, H6, D4, D6. reflexivity. }
  unfold remove_unaddressed. rewrite HA.
  assert (IP : in_proto j = true <-> ~ skipped k i).
  { rewrite <- N. unfold in_proto. destruct (ii_proto j); split; try congruence; intro H; exfalso; now apply H. }
  destruct (has_addr i) eqn:H.
  - rewrite andb_false_r. split; [split; auto|]. split; [|exact F]. rewrite EN, IP. tauto.
  - rewrite andb_true_r. destruct (in_proto j) eqn:IJ.
    + split; [split; [eapply same_trans; [exact T | apply same_set] | left; reflexivity]|].
      split; [|rewrite proto_set; discriminate]. unfold in_proto. rewrite proto_set, EN. split; [discriminate | intros [_ X]; discriminate].
    + split; [split; auto|]. split; [|exact F]. rewrite IJ, EN. split; [discriminate | intros [_ X]; discriminate].
Qed.

Lemma F2_map_map : forall A B C (R : A -> B -> Prop) (Q : A -> C -> Prop) (f : B -> C) l m,
  (forall a b, R a b -> Q a (f b)) -> Forall2 R l m -> Forall2 Q l (map f m).
Proof. intros A B C R Q f l m H F. induction F; cbn [map]; constructor; auto. Qed.

Lemma F2_filter : forall A B (R : A -> B -> Prop) (p : A -> bool) (q : B -> bool) l m,
  (forall a b, R a b -> p a = q b) -> Forall2 R l m -> Forall2 R (filter p l) (filter q m).
Proof.
  intros A B R p q l m H F. induction F as [|a b l m Hab F IH]; cbn [filter]; [constructor|].
  rewrite (H _ _ Hab). destruct (q b); auto.
Qed.

(* unfolding of a transformation without errors *)
Lemma igp_node_inv : forall k proto f rn n n',
  igp_node k proto f rn n = (n', []) ->
  exists b af is0 is2 vs v4 v6,
    igp_bfd proto n = (b, af, is0) /\
    Forall2 (prep k rn) (in_intfs n) is2 /\
    (if k_vrf_aware k then build_vrf_interface_list rn (in_vrfs n) is2 else (in_vrfs n, map remove_vrf_intf is2)) = (vs, in_intfs n') /\
    routing_af af (in_lb4 n) (in_lb6 n) (if_no4 f) (if_no6 f) (in_intfs n') = (v4, v6, []) /\
    remove_unused_igp proto (in_intfs n') (v4, v6) vs (in_modules n) = (in_data n', in_modules n') /\
    in_vrfs n' = vs /\ in_af n' = af /\ in_bfd n' = b /\
    is2 = map (fun i => remove_unaddressed (fst (igp_intf k (if_no_passive f) rn i))) is0 /\
    flat_map (fun i => snd (igp_intf k (if_no_passive f) rn i)) is0 = [] /\
    (k_unnum_check k = true -> ospf_unnumbered (if_unnum f) (map (fun i => fst (igp_intf k (if_no_passive f) rn i)) is0) = []).
Proof.
  intros k proto f rn n n'. unfold igp_node.
  destruct (igp_bfd proto n) as [[b af] is0] eqn:B.
  set (is1 := map (fun i => fst (igp_intf k (if_no_passive f) rn i)) is0).
  set (e1 := flat_map (fun i => snd (igp_intf k (if_no_passive f) rn i)) is0).
  destruct (if k_unnum_check k then ospf_unnumbered (if_unnum f) is1 else []) as [|x y] eqn:U.
  2:{ intro H. assert (X : e1 ++ x :: y = []) by congruence. destruct e1; discriminate X. }
  destruct (if k_vrf_aware k then build_vrf_interface_list rn (in_vrfs n) (map remove_unaddressed is1)
            else (in_vrfs n, map remove_vrf_intf (map remove_unaddressed is1))) as [vs is3] eqn:V.
  destruct (routing_af af (in_lb4 n) (in_lb6 n) (if_no4 f) (if_no6 f) is3) as [[v4 v6] e3] eqn:A.
  destruct (remove_unused_igp proto is3 (v4, v6) vs (in_modules n)) as [data mods] eqn:M.
  intro H. assert (E : e1 ++ e3 = []) by congruence. apply app_eq_nil in E. destruct E as [E1 E3].
  assert (N : n' = mk_inode is3 (in_lb4 n) (in_lb6 n) af b vs mods data) by congruence. subst n' e3. clear H.
  exists b, af, is0, (map remove_unaddressed is1), vs, v4, v6. cbn [in_intfs in_data in_modules in_vrfs in_af in_bfd].
  repeat match goal with |- _ /\ _ => split end; auto.
  - unfold is1. rewrite map_map. eapply F2_map_map; [|exact (igp_bfd_only _ _ _ _ _ B)].
    intros a c H. apply prep_one. exact H.
  - unfold is1. apply map_map.
  - intro K. rewrite K in U. exact U.
Qed.

Lemma F2_trans_spec : forall A B C (R : A -> B -> Prop) (Q : B -> C -> Prop) (T : A -> C -> Prop) l m q,
  (forall a b c, R a b -> Q b c -> T a c) -> Forall2 R l m -> Forall2 Q m q -> Forall2 T l q.
Proof.
  intros A B C R Q T l m q H F. revert q. induction F as [|a b l m Hab F IH]; intros q G; inversion G; subst; constructor; eauto.
Qed.

(* C76: after a transformation without errors the protocol runs in the global routing table on exactly the interfaces
   where it is enabled and that do not belong to a VRF; nothing else changes on the interfaces *)
Theorem igp_global_interfaces : forall k proto f rn n n',
  igp_node k proto f rn n = (n', []) ->
  Forall2 (fun i j => same_intf i j /\ (ii_proto j <> PNone <-> enabled k i /\ ii_vrf i = None)) (in_intfs n) (in_intfs n').
Proof.
  intros k proto f rn n n' H. destruct (igp_node_inv _ _ _ _ _ _ H) as (b & af & is0 & is2 & vs & v4 & v6 & _ & P & V & _).
  eapply (F2_trans_spec _ _ _ _ (fun p j => j = match ii_vrf p with Some _ => set_proto_data p PNone | None => p end)); [|exact P|].
  - intros i p j ((S & _) & E & _) ->.
    assert (VR : ii_vrf i = ii_vrf p) by apply S.
    assert (IP : in_proto p = true <-> ii_proto p <> PNone) by (unfold in_proto; destruct (ii_proto p); split; congruence).
    destruct (ii_vrf p) as [w|].
    + split; [eapply same_trans; [exact S | apply same_set]|]. rewrite proto_set, VR. split; [congruence | intros [_ X]; discriminate].
    + split; [exact S|]. rewrite VR, <- IP. tauto.
  - destruct (k_vrf_aware k).
    + unfold build_vrf_interface_list in V. destruct (vrf_intfs rn (in_vrfs n) is2) as [vs1 js] eqn:R.
      injection V as _ <-. exact (proj1 (vrf_intfs_spec _ _ _ _ _ R)).
    + injection V as _ <-. apply F2_map_r. intro i. unfold remove_vrf_intf. destruct (ii_vrf i); auto.
      unfold in_proto. destruct (ii_proto i) eqn:E; auto. rewrite <- E. symmetry. apply set_same.
Qed.

(* initial VRF data have no interface lists *)
Definition vrfs_wf (vs : dict vst) : Prop := forall v a l, dget v vs = Some (VData a l) -> l = [].

(* the VRF instance is active *)
Definition vrf_active (k : igp_kind) (rn : string -> bool) (n : inode) (v : string) : Prop :=
  match dget v (in_vrfs n) with
  | Some VFalse => False
  | Some VTrue => exists i, In i (in_intfs n) /\ enabled k i /\ ii_vrf i = Some v
  | Some (VData (Some true) _) => True
  | _ => exists i x, In i (in_intfs n) /\ enabled k i /\ ii_vrf i = Some v /\ In x (ii_ngbs i) /\ rn x = true
  end.

Lemma vrf_sel_prep : forall k rn is is2 v, Forall2 (prep k rn) is is2 ->
  Forall2 (prep k rn) (filter (fun i => enabled_b k i && opt_str_eqb (ii_vrf i) (Some v)) is) (vrf_sel v is2).
Proof.
  intros k rn is is2 v F. apply F2_filter; [|exact F]. intros i p ((S & _) & E & _).
  assert (VR : ii_vrf i = ii_vrf p) by apply S. rewrite VR. f_equal.
  rewrite <- enabled_b_iff in E. destruct (in_proto p), (enabled_b k i); try reflexivity;
    first [exact (proj1 E eq_refl) | exact (proj2 E eq_refl) | symmetry; exact (proj1 E eq_refl) | symmetry; exact (proj2 E eq_refl)].
Qed.

Lemma F2_In_l : forall A B (R : A -> B -> Prop) l m a, Forall2 R l m -> In a l -> exists b, In b m /\ R a b.
Proof. intros A B R l m a F. induction F; intros []; subst; [eexists; split; [left; reflexivity | auto]|]. destruct IHF as [b [? ?]]; auto. exists b. split; [right|]; auto. Qed.
Lemma F2_In_r : forall A B (R : A -> B -> Prop) l m b, Forall2 R l m -> In b m -> exists a, In a l /\ R a b.
Proof. intros A B R l m b F. induction F; intros []; subst; [eexists; split; [left; reflexivity | auto]|]. destruct IHF as [a [? ?]]; auto. exists a. split; [right|]; auto. Qed.

(* C77: VRF instances. The instance of the protocol in a VRF stays when it is active, and it has all interfaces of the VRF
   where the protocol is enabled, in the same order. *)
Theorem igp_vrf_instances : forall k proto f rn n n' v,
  k_vrf_aware k = true -> vrfs_wf (in_vrfs n) ->
  igp_node k proto f rn n = (n', []) ->
  (vrf_active k rn n v ->
     exists ifs, dget v (in_vrfs n') = Some (VData (Some true) ifs) /\
       Forall2 (fun i j => same_intf i j /\ exists d, ii_proto j = PSome d)
               (filter (fun i => enabled_b k i && opt_str_eqb (ii_vrf i) (Some v)) (in_intfs n)) ifs) /\
  (~ vrf_active k rn n v -> dget v (in_vrfs n') = None \/ dget v (in_vrfs n') = Some VNone).
Proof.
  intros k proto f rn n n' v KV W H.
  destruct (igp_node_inv _ _ _ _ _ _ H) as (b & af & is0 & is2 & vs & v4 & v6 & _ & P & V & _ & _ & EV & _).
  rewrite KV in V. unfold build_vrf_interface_list in V. destruct (vrf_intfs rn (in_vrfs n) is2) as [vs1 js] eqn:R.
  injection V as <- _. destruct (vrf_intfs_spec _ _ _ _ _ R) as [_ D]. specialize (D v).
  rewrite EV, dget_map_snd. pose proof (vrf_sel_prep _ _ _ _ v P) as SP.
  assert (IFS : Forall2 (fun i j => same_intf i j /\ exists d, ii_proto j = PSome d)
     (filter (fun i => enabled_b k i && opt_str_eqb (ii_vrf i) (Some v)) (in_intfs n)) (vrf_sel v is2)).
  { assert (AUX : forall l m, Forall2 (prep k rn) l m -> (forall x, In x m -> in_proto x = true) ->
              Forall2 (fun i j => same_intf i j /\ exists d, ii_proto j = PSome d) l m).
    { intros l m F. induction F as [|i p l m Hip F IH]; intros A; constructor.
      - destruct Hip as ((S & _) & _ & NF). split; auto. specialize (A p (or_introl eq_refl)). unfold in_proto in A.
        destruct (ii_proto p) as [| |d]; try discriminate; try contradiction. now exists d.
      - apply IH. intros x Hx. apply A. now right. }
    apply AUX; auto. intros x Hx. apply filter_In in Hx. destruct Hx as [_ Hx]. now apply andb_true_iff in Hx. }
  assert (EX : forall i, In i (in_intfs n) -> enabled k i -> ii_vrf i = Some v -> exists p, In p (vrf_sel v is2) /\ ii_ngbs p = ii_ngbs i).
  { intros i Hi He Hv. destruct (F2_In_l _ _ _ _ _ i SP) as [p [Hp ((S & _) & _)]].
    - apply filter_In. split; auto. apply andb_true_iff. split; [now apply enabled_b_iff | now apply opt_str_eqb_eq].
    - exists p. split; auto. symmetry. apply S. }
  assert (XE : forall p, In p (vrf_sel v is2) -> exists i, In i (in_intfs n) /\ enabled k i /\ ii_vrf i = Some v /\ ii_ngbs p = ii_ngbs i).
  { intros p Hp. destruct (F2_In_r _ _ _ _ _ p SP Hp) as [i [Hi ((S & _) & _)]]. exists i.
    apply filter_In in Hi. destruct Hi as [Hi Hb]. apply andb_true_iff in Hb. destruct Hb as [Hb Hc].
    split; auto. split; [now apply enabled_b_iff|]. split; [now apply opt_str_eqb_eq | symmetry; apply S]. }
  assert (AC : existsb (fun i => existsb rn (ii_ngbs i)) (vrf_sel v is2) = true <->
               exists i x, In i (in_intfs n) /\ enabled k i /\ ii_vrf i = Some v /\ In x (ii_ngbs i) /\ rn x = true).
  { rewrite existsb_exists. split.
    - intros [p [Hp Hx]]. apply existsb_exists in Hx. destruct Hx as [x [Hx Hr]]. destruct (XE p Hp) as (i & ? & ? & ? & E).
      exists i, x. rewrite <- E. auto.
    - intros (i & x & Hi & He & Hv & Hx & Hr). destruct (EX i Hi He Hv) as [p [Hp E]]. exists p. split; auto.
      apply existsb_exists. exists x. rewrite E. auto. }
  assert (ONE : vrf_sel v is2 <> [] <-> exists i, In i (in_intfs n) /\ enabled k i /\ ii_vrf i = Some v).
  { split.
    - intro NE. destruct (vrf_sel v is2) as [|p r]; [contradiction|]. destruct (XE p (or_introl eq_refl)) as (i & ? & ? & ? & _). eauto.
    - intros (i & Hi & He & Hv) E. destruct (EX i Hi He Hv) as [p [Hp _]]. rewrite E in Hp. destruct Hp. }
  unfold vrf_active. rewrite D.
  destruct (dget v (in_vrfs n)) as [[| | |a l]|] eqn:G.
  - (* VNone *) destruct (vrf_sel v is2) as [|p r] eqn:SE.
    + split; [intro A; apply AC in A; discriminate A | intros _; right; reflexivity].
    + cbn [st_active st_intfs app orb]. destruct (existsb _ (p :: r)) eqn:X; cbn [vrf_cleanup].
      * split; [intros _; exists (p :: r); auto | intro A; exfalso; apply A; now apply AC].
      * split; [intro A; apply AC in A; discriminate A | right; reflexivity].
  - destruct (vrf_sel v is2); (split; [intros [] | right; reflexivity]).
  - destruct (vrf_sel v is2) as [|p r] eqn:SE.
    + split; [intro A; apply ONE in A; now exfalso | right; reflexivity].
    + cbn [st_active st_intfs app orb vrf_cleanup]. split; [intros _; exists (p :: r); auto | intro A; exfalso; apply A; apply ONE; discriminate].
  - assert (L : l = []) by (eapply W; eauto). subst l. destruct (vrf_sel v is2) as [|p r] eqn:SE.
    + destruct a as [[|]|]; cbn [vrf_cleanup].
      * split; [intros _; exists []; auto | intro A; exfalso; now apply A].
      * split; [intro A; apply AC in A; discriminate A | right; reflexivity].
      * split; [intro A; apply AC in A; discriminate A | right; reflexivity].
    + cbn [st_active st_intfs app]. destruct a as [[|]|]; cbn [orb].
      * cbn [vrf_cleanup]. split; [intros _; exists (p :: r); auto | intro A; exfalso; now apply A].
      * destruct (existsb _ (p :: r)) eqn:X; cbn [vrf_cleanup].
        -- split; [intros _; exists (p :: r); auto | intro A; exfalso; apply A; now apply AC].
        -- split; [intro A; apply AC in A; discriminate A | right; reflexivity].
      * destruct (existsb _ (p :: r)) eqn:X; cbn [vrf_cleanup].
        -- split; [intros _; exists (p :: r); auto | intro A; exfalso; apply A; now apply AC].
        -- split; [intro A; apply AC in A; discriminate A | right; reflexivity].
  - destruct (vrf_sel v is2) as [|p r] eqn:SE.
    + split; [intro A; apply AC in A; discriminate A | intros _; left; reflexivity].
    + cbn [st_active st_intfs app orb]. destruct (existsb _ (p :: r)) eqn:X; cbn [vrf_cleanup].
      * split; [intros _; exists (p :: r); auto | intro A; exfalso; apply A; now apply AC].
      * split; [intro A; apply AC in A; discriminate A | right; reflexivity].
Qed.

(* interfaces the protocol runs on after the transformation: global interfaces and interfaces of VRF instances *)
Definition runs_on (n : inode) (j : igi) (d : pdata) : Prop :=
  ii_proto j = PSome d /\
  (In j (in_intfs n) \/ exists v a ifs, dget v (in_vrfs n) = Some (VData a ifs) /\ In j ifs).

Lemma runs_on_source : forall k rn n n' vs is2 j d,
  vrfs_wf (in_vrfs n) ->
  (if k_vrf_aware k then build_vrf_interface_list rn (in_vrfs n) is2 else (in_vrfs n, map remove_vrf_intf is2)) = (vs, in_intfs n') ->
  in_vrfs n' = vs -> runs_on n' j d -> In j is2.
Proof.
  intros k rn n n' vs is2 j d W V EV [D [J|(v & a & ifs & G & J)]].
  - assert (X : exists p, In p is2 /\ j = match ii_vrf p with Some _ => set_proto_data p PNone | None => p end).
    { destruct (k_vrf_aware k).
      - unfold build_vrf_interface_list in V. destruct (vrf_intfs rn (in_vrfs n) is2) as [vs1 js] eqn:R.
        injection V as _ V. rewrite <- V in J. destruct (vrf_intfs_spec _ _ _ _ _ R) as [F _].
        destruct (F2_In_r _ _ _ _ _ j F J) as [p [Hp E]]. eauto.
      - injection V as _ V. rewrite <- V in J. apply in_map_iff in J. destruct J as [p [E Hp]]. exists p. split; auto.
        rewrite <- E. unfold remove_vrf_intf. destruct (ii_vrf p); auto.
        unfold in_proto. destruct (ii_proto p) eqn:Q; auto. rewrite <- Q. symmetry. apply set_same. }
    destruct X as [p [Hp E]]. destruct (ii_vrf p) as [w|] eqn:VP.
    { rewrite E, proto_set in D. discriminate. }
    subst j. exact Hp.
  - destruct (k_vrf_aware k) eqn:KV.
    + unfold build_vrf_interface_list in V. destruct (vrf_intfs rn (in_vrfs n) is2) as [vs1 js] eqn:R.
      injection V as V _. destruct (vrf_intfs_spec _ _ _ _ _ R) as [_ DV]. specialize (DV v).
      rewrite EV, <- V, dget_map_snd, DV in G.
      assert (S : In j (vrf_sel v is2)).
      { destruct (vrf_sel v is2) as [|p r] eqn:SE.
        - destruct (dget v (in_vrfs n)) as [[| | |[[|]|] l]|] eqn:Q; try discriminate G.
          cbn [vrf_cleanup] in G. injection G as _ <-. rewrite (W _ _ _ Q) in J. destruct J.
        - destruct (dget v (in_vrfs n)) as [[| | |x l]|] eqn:Q; try discriminate G; try (apply W in Q; subst l);
            cbn [st_active st_intfs app] in G; destruct (_ || _) in G; cbn [vrf_cleanup] in G; try discriminate G; injection G as _ <-; exact J. }
      apply filter_In in S. tauto.
    + injection V as V _. rewrite EV, <- V in G. rewrite (W _ _ _ G) in J. destruct J.
Qed.

Lemma runs_on_prep : forall k proto f rn n n' j d,
  vrfs_wf (in_vrfs n) -> igp_node k proto f rn n = (n', []) -> runs_on n' j d ->
  exists i, In i (in_intfs n) /\ prep k rn i j.
Proof.
  intros k proto f rn n n' j d W H R.
  destruct (igp_node_inv _ _ _ _ _ _ H) as (b & af & is0 & is2 & vs & v4 & v6 & _ & P & V & _ & _ & EV & _).
  apply (F2_In_r _ _ _ _ _ j P). eapply runs_on_source; eauto.
Qed.

(* C78: passive flags and network types of all interfaces the protocol runs on *)
Theorem igp_passive_and_type : forall k proto f rn n n' j d,
  vrfs_wf (in_vrfs n) -> igp_node k proto f rn n = (n', []) -> runs_on n' j d ->
  exists i, In i (in_intfs n) /\ same_intf i j /\ enabled k i /\
    (pd_passive d = Some true <-> should_be_passive rn i) /\
    (pd_passive d = Some false <-> ~ should_be_passive rn i) /\
    pd_ntype d = wanted_ntype k i.
Proof.
  intros k proto f rn n n' j d W H R. destruct (runs_on_prep _ _ _ _ _ _ _ _ W H R) as (i & Hi & ((S & Q) & E & NF)).
  destruct R as [D _]. exists i. split; auto. split; auto.
  destruct Q as [Q|(d' & b & Q1 & Q2 & Q3 & Q4)]; [congruence|]. rewrite D in Q1. injection Q1 as <-.
  split. { apply E. unfold in_proto. now rewrite D. }
  rewrite Q2. split; [|split; [|exact Q4]].
  - rewrite <- Q3. split; congruence.
  - rewrite <- Q3. destruct b; split; try congruence; intro X; exfalso; now apply X.
Qed.

(* C79: address families. Configured flags are used when there are any, otherwise the address families of the loopback
   interface and of the global interfaces the protocol runs on. Protocol data are removed from the node when the protocol
   does not run on any global interface. *)
Definition has_v4 (i : igi) : Prop := ii_v4 i <> None \/ ii_dhcp4 i = true.
Definition has_v6 (i : igi) : Prop := ii_v6 i <> None \/ ii_dhcp6 i = true.

Lemma af_used_spec : forall pick lb is, af_used pick lb is = true <->
  lb = true \/ exists i, In i is /\ ii_proto i <> PNone /\ pick i = true /\ ii_vrf i = None.
Proof.
  intros pick lb is. unfold af_used. rewrite orb_true_iff, existsb_exists. apply or_iff_compat_l.
  assert (IP : forall i, in_proto i = true <-> ii_proto i <> PNone) by (intro i; unfold in_proto; destruct (ii_proto i); split; congruence).
  split; intros [i [Hi H]]; exists i; split; auto.
  - apply andb_true_iff in H. destruct H as [H V]. apply andb_true_iff in H. destruct H as [A B]. rewrite <- IP.
    destruct (ii_vrf i); [discriminate|auto].
  - destruct H as (A & B & C). apply IP in A. rewrite A, B, C. reflexivity.
Qed.

Lemma routing_af_spec : forall af lb4 lb6 no4 no6 is v4 v6,
  routing_af af lb4 lb6 no4 no6 is = (v4, v6, []) ->
  match af with
  | Some l => (v4 = true <-> dget "ipv4" l = Some true) /\ (v6 = true <-> dget "ipv6" l = Some true) /\
              (forall x, In x (map fst l) -> x = "ipv4" \/ x = "ipv6")
  | None => v4 = af_used pick4 lb4 is /\ v6 = af_used pick6 lb6 is
  end /\ (v4 = true -> no4 = false) /\ (v6 = true -> no6 = false).
Proof.
  intros af lb4 lb6 no4 no6 is v4 v6. unfold routing_af.
  destruct af as [l|].
  - intro H. injection H as H4 H6 H. rewrite H4, H6 in H. apply app_eq_nil in H. destruct H as [B C].
    split; [split; [|split]|].
    + rewrite <- H4. destruct (dget "ipv4" l) as [[|]|]; split; congruence.
    + rewrite <- H6. destruct (dget "ipv6" l) as [[|]|]; split; congruence.
    + assert (B' : flat_map (fun kv : string * bool => if memS (fst kv) ["ipv4"; "ipv6"] then [] else [IgpBadAf (fst kv)]) l = []) by exact B.
      clear -B'. intros x Hx. apply in_map_iff in Hx. destruct Hx as [kv [<- Hx]].
      destruct (memS (fst kv) ["ipv4"; "ipv6"]) eqn:M.
      * apply memS_true in M. destruct M as [M|[M|[]]]; auto.
      * exfalso. assert (I : In (IgpBadAf (fst kv)) []) by (rewrite <- B'; apply in_flat_map; exists kv; split; [auto | cbv beta; rewrite M; left; reflexivity]).
        destruct I.
    + destruct v4, v6, no4, no6; cbn in C; try discriminate C; split; congruence.
  - intro H. injection H as H4 H6 H. rewrite H4, H6 in H. split; [auto|].
    destruct v4, v6, no4, no6; cbn in H; try discriminate H; split; congruence.
Qed.

Theorem igp_address_families : forall k proto f rn n n',
  (proto = "isis" -> in_bfd n <> Some (BfdFlag true)) ->
  igp_node k proto f rn n = (n', []) ->
  match in_data n' with
  | None => forall j, In j (in_intfs n') -> ii_proto j = PNone
  | Some (v4, v6) =>
      (exists j, In j (in_intfs n') /\ ii_proto j <> PNone) /\
      match in_af n with
      | Some l => (v4 = true <-> dget "ipv4" l = Some true) /\ (v6 = true <-> dget "ipv6" l = Some true)
      | None => (v4 = true <-> in_lb4 n = true \/ exists j, In j (in_intfs n') /\ ii_proto j <> PNone /\ has_v4 j) /\
                (v6 = true <-> in_lb6 n = true \/ exists j, In j (in_intfs n') /\ ii_proto j <> PNone /\ has_v6 j)
      end /\ (v4 = true -> if_no4 f = false) /\ (v6 = true -> if_no6 f = false)
  end.
Proof.
  intros k proto f rn n n' NB H. pose proof (igp_global_interfaces _ _ _ _ _ _ H) as GI.
  destruct (igp_node_inv _ _ _ _ _ _ H) as (b & af & is0 & is2 & vs & v4 & v6 & B & P & V & A & M & _).
  unfold remove_unused_igp in M. assert (MD : (if existsb in_proto (in_intfs n') then Some (v4, v6) else None) = in_data n') by congruence.
  assert (IP : forall i, in_proto i = true <-> ii_proto i <> PNone) by (intro i; unfold in_proto; destruct (ii_proto i); split; congruence).
  rewrite <- MD. destruct (existsb in_proto (in_intfs n')) eqn:X.
  - split. { apply existsb_exists in X. destruct X as [j [Hj X]]. exists j. split; auto. now apply IP. }
    assert (AF : af = in_af n).
    { unfold igp_bfd in B. destruct (String.eqb_spec proto "isis") as [->|_].
      - unfold multiprotocol_bfd in B. specialize (NB eq_refl). destruct (in_bfd n) as [[[|]|x y]|].
        + congruence.
        + destruct (memS "bfd" (in_modules n)); injection B as _ <- _; reflexivity.
        + destruct (memS "bfd" (in_modules n)); injection B as _ <- _; reflexivity.
        + injection B as _ <- _. reflexivity.
      - destruct (String.eqb proto "eigrp"); [injection B as _ <- _; reflexivity|].
        destruct (bfd_link_state _ _ _). injection B as _ <- _. reflexivity. }
    subst af. destruct (routing_af_spec _ _ _ _ _ _ _ _ A) as [R1 R2]. split; [|exact R2].
    assert (VN : forall j, In j (in_intfs n') -> ii_proto j <> PNone -> ii_vrf j = None).
    { intros j Hj Hp. destruct (F2_In_r _ _ _ _ _ j GI Hj) as [i [_ [S E]]].
      apply E in Hp. destruct Hp as [_ Hp]. rewrite <- Hp. symmetry. apply S. }
    destruct (in_af n) as [l|].
    + destruct R1 as (Q1 & Q2 & _). auto.
    + destruct R1 as [-> ->]. rewrite !af_used_spec. unfold has_v4, has_v6, pick4, pick6. split.
      * apply or_iff_compat_l. split; intros [j (Hj & Hp & Hx)]; exists j; split; auto; split; auto.
        -- destruct (ii_v4 j); [left; congruence | right; tauto].
        -- split; [destruct (ii_v4 j); auto; destruct Hx; congruence | auto].
      * apply or_iff_compat_l. split; intros [j (Hj & Hp & Hx)]; exists j; split; auto; split; auto.
        -- destruct (ii_v6 j); [left; congruence | right; tauto].
        -- split; [destruct (ii_v6 j); auto; destruct Hx; congruence | auto].
  - intros j Hj. destruct (ii_proto j) eqn:Q; auto; exfalso;
      assert (Y : existsb in_proto (in_intfs n') = true) by (apply existsb_exists; exists j; split; auto; unfold in_proto; now rewrite Q); congruence.
Qed.

(* the module stays on the node when it has an address family in the global routing table or a VRF instance *)
Theorem igp_module_kept : forall k proto f rn n n',
  igp_node k proto f rn n = (n', []) -> In proto (in_modules n) ->
  (In proto (in_modules n') <->
     (exists v4 v6, in_data n' = Some (v4, v6) /\ (v4 = true \/ v6 = true)) \/
     (exists v s, In (v, s) (in_vrfs n') /\ s <> VNone)) /\
  (forall m, m <> proto -> (In m (in_modules n') <-> In m (in_modules n))).
Proof.
  intros k proto f rn n n' H IM.
  destruct (igp_node_inv _ _ _ _ _ _ H) as (b & af & is0 & is2 & vs & v4 & v6 & _ & _ & _ & _ & M & EV & _).
  unfold remove_unused_igp in M.
  set (data := if existsb in_proto (in_intfs n') then Some (v4, v6) else None) in *.
  set (used := match data with Some (a, c) => a || c | None => false end || existsb (fun kv => is_vdata (snd kv)) vs) in *.
  assert (MD : data = in_data n') by congruence.
  assert (MM : (if used then in_modules n else filter (fun m => negb (String.eqb m proto)) (in_modules n)) = in_modules n') by congruence.
  assert (US : used = true <-> (exists v4 v6, in_data n' = Some (v4, v6) /\ (v4 = true \/ v6 = true)) \/
     (exists v s, In (v, s) (in_vrfs n') /\ s <> VNone)).
  { unfold used. rewrite orb_true_iff, MD, EV. assert (OI : forall a b c d : Prop, (a <-> c) -> (b <-> d) -> (a \/ b <-> c \/ d)) by tauto. apply OI.
    - destruct (in_data n') as [[x y]|].
      + rewrite orb_true_iff. split; [intro Q; exists x, y; auto | intros (a & c & Q & R); injection Q as -> ->; auto].
      + split; [discriminate | intros (a & c & Q & _); discriminate].
    - rewrite existsb_exists. split.
      + intros [[v s] [Hv Hs]]. exists v, s. split; auto. destruct s; cbn in Hs; congruence.
      + intros (v & s & Hv & Hs). exists (v, s). split; auto. destruct s; cbn; congruence. }
  rewrite <- MM, <- US. split.
  - destruct used; [tauto|]. split; [|discriminate]. rewrite filter_In, String.eqb_refl. cbn. tauto.
  - intros m Hm. destruct used; [tauto|]. rewrite filter_In. split; [tauto|]. intro. split; auto. now apply negb_true_iff, String.eqb_neq.
Qed.

(* C79: isis.bfd set to True removes IS-IS from a node without configured isis.af and without VRF interfaces: reading the
   missing af attribute creates an empty one, which is later taken for a configured value *)
Theorem isis_bfd_flag_disables_isis : forall f rn n n',
  igp_node k_isis "isis" f rn n = (n', []) ->
  in_bfd n = Some (BfdFlag true) -> In "bfd" (in_modules n) -> in_af n = None ->
  in_vrfs n = [] -> (forall i, In i (in_intfs n) -> ii_vrf i = None) ->
  ~ In "isis" (in_modules n').
Proof.
  intros f rn n n' H B MB AF VS NV.
  destruct (igp_node_inv _ _ _ _ _ _ H) as (b & af & is0 & is2 & vs & v4 & v6 & BB & P & V & A & M & _).
  assert (E : af = Some []).
  { unfold igp_bfd in BB. rewrite B, AF in BB. cbn [String.eqb Ascii.eqb Bool.eqb] in BB.
    assert (MS : memS "bfd" (in_modules n) = true) by now apply memS_true.
    unfold multiprotocol_bfd in BB. rewrite MS in BB. injection BB as _ <- _. reflexivity. }
  subst af. destruct (routing_af_spec _ _ _ _ _ _ _ _ A) as [[R4 [R6 _]] _].
  assert (v4 = false) by (destruct v4; auto; exfalso; assert (X : dget "ipv4" ([] : afdict) = Some true) by tauto; discriminate X).
  assert (v6 = false) by (destruct v6; auto; exfalso; assert (X : dget "ipv6" ([] : afdict) = Some true) by tauto; discriminate X).
  subst v4 v6.
  assert (VE : vs = []).
  { cbn [k_vrf_aware k_isis] in V. rewrite VS in V. unfold build_vrf_interface_list in V.
    destruct (vrf_intfs rn [] is2) as [vs1 js] eqn:R. injection V as <- _.
    assert (NV2 : forall p, In p is2 -> ii_vrf p = None).
    { intros p Hp. destruct (F2_In_r _ _ _ _ _ p P Hp) as [i [Hi ((S & _) & _)]]. rewrite <- (NV i Hi). symmetry. apply S. }
    clear -R NV2. revert js R. induction is2 as [|p r IH]; intros js; cbn [vrf_intfs].
    - intro R. injection R as <- _. reflexivity.
    - unfold vrf_intf. rewrite (NV2 p (or_introl eq_refl)).
      destruct (ii_proto p); destruct (vrf_intfs rn [] r) as [vs2 q] eqn:Q; intro R; injection R as <- _;
        (eapply IH; [intros x Hx; apply NV2; now right | reflexivity]). }
  subst vs. unfold remove_unused_igp in M. cbn [existsb] in M.
  assert (MM : in_modules n' = filter (fun m => negb (String.eqb m "isis")) (in_modules n)).
  { destruct (existsb in_proto (in_intfs n')); cbn in M; congruence. }
  rewrite MM, filter_In. intros [_ X]. discriminate X.
Qed.

(* ---- labs ---- *)

Lemma igp_node_modules : forall k proto f rn n n' e m,
  igp_node k proto f rn n = (n', e) -> In m (in_modules n') -> In m (in_modules n).
Proof.
  intros k proto f rn n n' e m. unfold igp_node.
  destruct (igp_bfd proto n) as [[b af] is0].
  destruct (if k_unnum_check k then _ else _).
  - destruct (if k_vrf_aware k then _ else _) as [vs is3]. destruct (routing_af _ _ _ _ _ _) as [[v4 v6] e3].
    destruct (remove_unused_igp _ _ _ _ _) as [data mods] eqn:M. intro H. injection H as <- _. cbn [in_modules].
    unfold remove_unused_igp in M. destruct (_ || _) in M; assert (X : mods = _) by (injection M as _ X; exact (eq_sym X)); subst mods; auto.
    rewrite filter_In. tauto.
  - intro H. injection H as <- _. auto.
Qed.

Lemma lab_running_dset : forall proto lab k n c,
  lab_running proto (dset k n lab) c = if String.eqb c k then memS proto (in_modules n) else lab_running proto lab c.
Proof.
  intros proto lab k n c. unfold lab_running. destruct (String.eqb_spec c k) as [->|N].
  - now rewrite dget_dset_same.
  - now rewrite dget_dset_other.
Qed.

Lemma memS_In : forall x l, memS x l = true <-> In x l.
Proof. intros. apply memS_true. Qed.

Lemma igp_lab_running : forall k proto f names lab lab' e c,
  igp_lab k proto f names lab = (lab', e) -> lab_running proto lab' c = true -> lab_running proto lab c = true.
Proof.
  intros k proto f names. induction names as [|x r IH]; intros lab lab' e c; cbn [igp_lab].
  - intro H. injection H as <- _. auto.
  - destruct (dget x lab) as [n|] eqn:G; [|apply IH].
    destruct (memS proto (in_modules n)) eqn:M; [|apply IH].
    destruct (igp_node k proto (f x) (lab_running proto lab) n) as [n' e1] eqn:N.
    destruct (igp_lab k proto f r (dset x n' lab)) as [l2 e2] eqn:R. intro H. injection H as <- _. intro Q.
    apply (IH _ _ _ _ R) in Q. rewrite lab_running_dset in Q. destruct (String.eqb_spec c x) as [->|_]; auto.
    unfold lab_running. now rewrite G.
Qed.

Lemma igp_lab_other : forall k proto f names lab lab' e a,
  igp_lab k proto f names lab = (lab', e) -> ~ In a names -> dget a lab' = dget a lab.
Proof.
  intros k proto f names. induction names as [|x r IH]; intros lab lab' e a; cbn [igp_lab].
  - intro H. injection H as <- _. auto.
  - intros H NI. assert (a <> x) by (intro; apply NI; left; auto). assert (~ In a r) by (intro; apply NI; right; auto).
    destruct (dget x lab) as [n|] eqn:G; [|eauto].
    destruct (memS proto (in_modules n)) eqn:M; [|eauto].
    destruct (igp_node k proto (f x) (lab_running proto lab) n) as [n' e1] eqn:N.
    destruct (igp_lab k proto f r (dset x n' lab)) as [l2 e2] eqn:R. injection H as <- _.
    rewrite (IH _ _ _ a R); auto. now apply dget_dset_other.
Qed.

(* a node of a lab is processed once; at that time all nodes that use the protocol in the end used it *)
Lemma igp_lab_node : forall k proto f names lab lab' a n,
  igp_lab k proto f names lab = (lab', []) -> NoDup names -> In a names ->
  dget a lab = Some n -> In proto (in_modules n) ->
  exists rn n', dget a lab' = Some n' /\ igp_node k proto (f a) rn n = (n', []) /\
    (forall c, lab_running proto lab' c = true -> c <> a -> rn c = true) /\
    (forall c, rn c = true -> lab_running proto lab c = true).
Proof.
  intros k proto f names. induction names as [|x r IH]; intros lab lab' a n H ND IA G M; [destruct IA|].
  cbn [igp_lab] in H. inversion ND as [|? ? NX NR]; subst.
  destruct (string_dec x a) as [->|NE].
  - rewrite G in H. rewrite (proj2 (memS_In _ _) M) in H.
    destruct (igp_node k proto (f a) (lab_running proto lab) n) as [n' e1] eqn:N.
    destruct (igp_lab k proto f r (dset a n' lab)) as [l2 e2] eqn:R.
    assert (E : e1 ++ e2 = []) by congruence. apply app_eq_nil in E. destruct E as [-> ->]. assert (l2 = lab') by congruence. subst l2.
    exists (lab_running proto lab), n'. rewrite (igp_lab_other _ _ _ _ _ _ _ a R NX), dget_dset_same.
    split; [reflexivity|]. split; [exact N|]. split; [|auto].
    intros c Q NC. apply (igp_lab_running _ _ _ _ _ _ _ _ R) in Q. rewrite lab_running_dset in Q.
    destruct (String.eqb_spec c a); [contradiction|auto].
  - destruct IA as [IA|IA]; [contradiction|].
    destruct (dget x lab) as [m|] eqn:GX; [|eapply IH; eauto].
    destruct (memS proto (in_modules m)) eqn:MX; [|eapply IH; eauto].
    destruct (igp_node k proto (f x) (lab_running proto lab) m) as [m' e1] eqn:N.
    destruct (igp_lab k proto f r (dset x m' lab)) as [l2 e2] eqn:R.
    assert (E : e1 ++ e2 = []) by congruence. apply app_eq_nil in E. destruct E as [-> ->]. assert (l2 = lab') by congruence. subst l2.
    destruct (IH _ _ a n R NR IA) as (rn & n' & D & ND' & C1 & C2); [rewrite dget_dset_other; auto | auto |].
    exists rn, n'. split; [auto|]. split; [auto|]. split; [auto|].
    intros c Q. apply C2 in Q. rewrite lab_running_dset in Q. destruct (String.eqb_spec c x) as [E|_]; auto.
    unfold lab_running. rewrite E, GX. exact MX.
Qed.

(* C78: two nodes on a link that use the protocol have the same passive flag on the link, unless the user set it *)
Theorem igp_passive_agree : forall k proto f names lab lab' a b na nb na' nb' ja da jb db,
  igp_lab k proto f names lab = (lab', []) -> NoDup names -> In a names -> In b names -> a <> b ->
  dget a lab = Some na -> dget b lab = Some nb -> vrfs_wf (in_vrfs na) -> vrfs_wf (in_vrfs nb) ->
  dget a lab' = Some na' -> dget b lab' = Some nb' ->
  In proto (in_modules na') -> In proto (in_modules nb') ->
  runs_on na' ja da -> runs_on nb' jb db ->
  In b (ii_ngbs ja) -> In a (ii_ngbs jb) -> ii_role ja = ii_role jb -> ii_type ja = ii_type jb ->
  (forall i, In i (in_intfs na) -> same_intf i ja -> conf_passive i = None) ->
  (forall i, In i (in_intfs nb) -> same_intf i jb -> conf_passive i = None) ->
  pd_passive da = pd_passive db.
Proof.
  intros k proto f names lab lab' a b na nb na' nb' ja da jb db H ND IA IB AB GA GB WA WB GA' GB' MA MB RA RB NA NB ER ET CA CB.
  assert (LA : lab_running proto lab' a = true) by (unfold lab_running; rewrite GA'; now apply memS_In).
  assert (LB : lab_running proto lab' b = true) by (unfold lab_running; rewrite GB'; now apply memS_In).
  assert (MA0 : In proto (in_modules na)).
  { pose proof (igp_lab_running _ _ _ _ _ _ _ _ H LA) as Q. unfold lab_running in Q. rewrite GA in Q. now apply memS_In. }
  assert (MB0 : In proto (in_modules nb)).
  { pose proof (igp_lab_running _ _ _ _ _ _ _ _ H LB) as Q. unfold lab_running in Q. rewrite GB in Q. now apply memS_In. }
  destruct (igp_lab_node _ _ _ _ _ _ _ _ H ND IA GA MA0) as (rna & xa & DA & TA & CA1 & _).
  destruct (igp_lab_node _ _ _ _ _ _ _ _ H ND IB GB MB0) as (rnb & xb & DB & TB & CB1 & _).
  assert (xa = na') by congruence. assert (xb = nb') by congruence. subst xa xb.
  destruct (igp_passive_and_type _ _ _ _ _ _ _ _ WA TA RA) as (i & Hi & Si & _ & P1 & P2 & _).
  destruct (igp_passive_and_type _ _ _ _ _ _ _ _ WB TB RB) as (j & Hj & Sj & _ & Q1 & Q2 & _).
  unfold should_be_passive in *. rewrite (CA i Hi Si) in P1, P2. rewrite (CB j Hj Sj) in Q1, Q2.
  assert (Ri : ii_role i = ii_role ja) by apply Si. assert (Ti : ii_type i = ii_type ja) by apply Si.
  assert (Gi : ii_ngbs i = ii_ngbs ja) by apply Si.
  assert (Rj : ii_role j = ii_role jb) by apply Sj. assert (Tj : ii_type j = ii_type jb) by apply Sj.
  assert (Gj : ii_ngbs j = ii_ngbs jb) by apply Sj.
  rewrite Ri, Ti, Gi in P1, P2. rewrite Rj, Tj, Gj, <- ER, <- ET in Q1, Q2.
  assert (XA : ~ (forall x, In x (ii_ngbs ja) -> rna x = false)) by (intro X; apply X in NA; rewrite CA1 in NA; [discriminate|auto|auto]).
  assert (XB : ~ (forall x, In x (ii_ngbs jb) -> rnb x = false)) by (intro X; apply X in NB; rewrite CB1 in NB; [discriminate|auto|auto]).
  destruct (string_dec (ii_role ja) "passive"), (string_dec (ii_role ja) "external"), (string_dec (ii_type ja) "stub");
    try (rewrite (proj2 P1), (proj2 Q1); tauto).
  rewrite (proj2 P2), (proj2 Q2); tauto.
Qed.

(* ---- unnumbered interfaces and network types ---- *)

(* C80: after a transformation without errors OSPF runs on unnumbered interfaces with exactly one neighbor only, and only
   on devices that support them *)
Theorem ospf_unnumbered_neighbors : forall f rn n n' j d,
  vrfs_wf (in_vrfs n) -> igp_node k_ospf "ospf" f rn n = (n', []) -> runs_on n' j d ->
  ii_v4 j = Some (IBool true) -> (exists x, ii_ngbs j = [x]) /\ if_unnum f = true.
Proof.
  intros f rn n n' j d W H R U.
  destruct (igp_node_inv _ _ _ _ _ _ H) as (b & af & is0 & is2 & vs & v4 & v6 & _ & _ & V & _ & _ & EV & _ & _ & E2 & _ & UN).
  assert (J : In j is2) by (eapply runs_on_source; eauto).
  specialize (UN eq_refl). unfold ospf_unnumbered in UN. apply app_eq_nil in UN. destruct UN as [U1 U2].
  assert (J1 : In j (filter (fun i => in_proto i && match ii_v4 i with Some (IBool true) => true | _ => false end)
                 (map (fun i => fst (igp_intf k_ospf (if_no_passive f) rn i)) is0))).
  { rewrite E2 in J. apply in_map_iff in J. destruct J as [i [E Hi]]. destruct R as [D _].
    assert (EJ : fst (igp_intf k_ospf (if_no_passive f) rn i) = j).
    { unfold remove_unaddressed in E. destruct (_ && _) in E; auto. rewrite <- E, proto_set in D. discriminate. }
    apply filter_In. split; [apply in_map_iff; eauto|]. unfold in_proto. rewrite D, U. reflexivity. }
  split.
  - destruct (ii_ngbs j) as [|x [|y r]] eqn:G; [exfalso | eauto | exfalso].
    + assert (I : In (IgpStubUnnum (ii_name j)) []) by (rewrite <- U1; apply in_flat_map; exists j; split; [exact J1 | rewrite G; left; reflexivity]).
      destruct I.
    + assert (I : In (IgpMultiaccess (ii_name j)) []) by (rewrite <- U1; apply in_flat_map; exists j; split; [exact J1 | rewrite G; left; reflexivity]).
      destruct I.
  - destruct (filter _ _) as [|x r] in J1, U2; [destruct J1|]. destruct (if_unnum f); [reflexivity | discriminate U2].
Qed.

(* C78: network types are among those the protocol knows *)
Theorem igp_network_type_valid : forall k proto f rn n n' j d ts t,
  vrfs_wf (in_vrfs n) -> igp_node k proto f rn n = (n', []) -> runs_on n' j d ->
  k_types k = Some ts -> In "point-to-point" ts -> pd_ntype d = Some t -> In t ts.
Proof.
  intros k proto f rn n n' j d ts t W H R KT PP T.
  destruct (igp_node_inv _ _ _ _ _ _ H) as (b & af & is0 & is2 & vs & v4 & v6 & _ & _ & V & _ & _ & EV & _ & _ & E2 & ER & _).
  assert (J : In j is2) by (eapply runs_on_source; eauto).
  rewrite E2 in J. apply in_map_iff in J. destruct J as [i [E Hi]]. destruct R as [D _].
  assert (EJ : fst (igp_intf k (if_no_passive f) rn i) = j).
  { unfold remove_unaddressed in E. destruct (_ && _) in E; auto. rewrite <- E, proto_set in D. discriminate. }
  clear E.
  assert (EN : snd (igp_intf k (if_no_passive f) rn i) = []).
  { destruct (snd (igp_intf k (if_no_passive f) rn i)) as [|x r] eqn:Q; auto. exfalso.
    assert (I : In x []) by (rewrite <- ER; apply in_flat_map; exists i; split; [auto | rewrite Q; left; reflexivity]). destruct I. }
  unfold igp_intf in EJ, EN. rewrite KT in EJ, EN.
  destruct (external i || _). { cbn [fst] in EJ. rewrite <- EJ, proto_set in D. discriminate. }
  unfold network_type in EJ, EN.
  destruct (pd_ntype (proto_data (passive rn i))) as [[|c s]|] eqn:NT.
  - cbn [fst] in EJ. rewrite <- EJ, proto_set in D. injection D as <-. cbn [pd_ntype] in T. discriminate.
  - destruct (memS (String c s) ts) eqn:M.
    + cbn [fst] in EJ. subst j. unfold proto_data in NT. rewrite D in NT. rewrite T in NT. injection NT as ->. now apply memS_In.
    + cbn [snd] in EN. destruct (pd_passive _) in EN; [destruct (_ && _) in EN|]; discriminate EN.
  - destruct (Nat.eqb _ 1).
    + cbn [fst] in EJ. rewrite <- EJ, proto_set in D. injection D as <-. cbn [pd_ntype] in T. injection T as <-. exact PP.
    + cbn [fst] in EJ. subst j. unfold proto_data in NT. rewrite D in NT. congruence.
Qed.

(* ---- BFD ---- *)

Definition conf_bfd (i : igi) : option bfdval := match ii_proto i with PSome d => pd_bfd d | _ => None end.

(* a configured value asks for BFD *)
Definition wants_bfd (b : bfdval) : Prop := b = BfdFlag true \/ exists v4 v6, b = BfdAf v4 v6 /\ (v4 <> None \/ v6 <> None).

Lemma wants_bfd_iff : forall b, bfd_truthy b = true <-> wants_bfd b.
Proof.
  intros [[|]|[x|] [y|]]; unfold wants_bfd; cbn [bfd_truthy]; split; try discriminate; auto.
  - intros [H|(a & c & H & _)]; discriminate H.
  - intros _. right. do 2 eexists. split; [reflexivity|left; discriminate].
  - intros _. right. do 2 eexists. split; [reflexivity|left; discriminate].
  - intros _. right. do 2 eexists. split; [reflexivity|right; discriminate].
  - intros [H|(a & c & H & X)]; [discriminate H|]. injection H as <- <-. destruct X; congruence.
Qed.

Lemma conf_bfd_close : forall i d, conf_bfd (close_proto i d) = pd_bfd d.
Proof.
  intros i d. unfold conf_bfd, close_proto. rewrite proto_set. unfold pd_is_empty.
  destruct (pd_bfd d) as [b|] eqn:B; [auto|].
  destruct (pd_passive d); [auto|]. destruct (pd_ntype d); [auto|]. destruct (pd_other d); auto.
Qed.

(* C80: BFD of OSPF and RIP on interfaces when the node has the bfd attribute: not disabled on the interface, and
   requested for the interface or by the node *)
Theorem bfd_interfaces : forall on b is nb js,
  bfd_link_state on (Some b) is = (nb, js) ->
  (nb = Some (BfdFlag true) <-> on = true /\ wants_bfd b) /\ (nb = None <-> ~ (on = true /\ wants_bfd b)) /\
  Forall2 (fun i j => same_intf i j /\ conf_passive j = conf_passive i /\ conf_ntype j = conf_ntype i /\
    (ii_proto i = PFalse -> j = i) /\
    (ii_proto i <> PFalse ->
       (conf_bfd j <> None <->
        ii_bfd_off i = false /\ match conf_bfd i with Some x => wants_bfd x | None => on = true /\ wants_bfd b end))) is js.
Proof.
  intros on b is nb js. unfold bfd_link_state. intro H. injection H as <- <-.
  assert (F : (on && bfd_truthy b)%bool = true <-> on = true /\ wants_bfd b) by (rewrite andb_true_iff, wants_bfd_iff; tauto).
  split; [|split].
  - rewrite <- F. destruct (on && bfd_truthy b)%bool; split; congruence.
  - rewrite <- F. destruct (on && bfd_truthy b)%bool; split; congruence.
  - apply F2_map_r. intro i. destruct (bfd_intf_only (on && bfd_truthy b)%bool i) as (S & _ & P & N).
    split; [exact S|]. split; [auto|]. split; [auto|]. split.
    + intro PF. unfold bfd_intf. now rewrite PF.
    + intro NF. assert (E : bfd_intf (on && bfd_truthy b) i = close_proto i (set_bfd (proto_data i)
        (if ii_bfd_off i || negb (bfd_truthy (match pd_bfd (proto_data i) with Some b => b | None => BfdFlag (on && bfd_truthy b) end)) then None
         else Some (match pd_bfd (proto_data i) with Some b => b | None => BfdFlag (on && bfd_truthy b) end)))).
      { unfold bfd_intf. destruct (ii_proto i); auto. contradiction. }
      rewrite E, conf_bfd_close. cbn [set_bfd pd_bfd].
      assert (CB : conf_bfd i = pd_bfd (proto_data i)) by (unfold conf_bfd, proto_data; destruct (ii_proto i); auto; contradiction).
      rewrite CB. destruct (ii_bfd_off i); cbn [orb]; [split; [congruence | intros [X _]; discriminate]|].
      destruct (pd_bfd (proto_data i)) as [x|].
      * rewrite <- wants_bfd_iff. destruct (bfd_truthy x); cbn [negb]; split; try congruence; try tauto; try (intros [_ X]; discriminate X); try (intros _; discriminate).
      * cbn [bfd_truthy]. rewrite <- F. destruct (on && bfd_truthy b)%bool; cbn [negb]; split; try congruence; try tauto; try (intros [_ X]; discriminate X); try (intros _; discriminate).
Qed.

(* a node without the bfd module could still have BFD on an OSPF interface *)
Theorem bfd_without_module_refuted : exists nb is,
  (let '(_, js) := bfd_link_state false nb is in exists j, In j js /\ conf_bfd j = Some (BfdFlag true)) /\ nb = Some (BfdFlag true).
Proof.
  exists (Some (BfdFlag true)),
    [mk_igi "eth1" "" "p2p" (Some (IAddr "10.0.0.1/30")) None false false None ["r2"] false (PSome (mk_pd (Some (BfdFlag true)) None None false))].
  split; [|reflexivity]. eexists. split; [left; reflexivity | reflexivity].
Qed.

Theorem bfd_without_module : forall b is nb js,
  bfd_link_state false (Some b) is = (nb, js) ->
  (forall i, In i is -> conf_bfd i = None) -> nb = None /\ forall j, In j js -> conf_bfd j = None.
Proof.
  intros b is nb js H NB. destruct (bfd_interfaces _ _ _ _ _ H) as (_ & A & F). split.
  - apply A. intros [X _]. discriminate X.
  - intros j Hj. destruct (F2_In_r _ _ _ _ _ j F Hj) as [i [Hi (_ & _ & _ & PF & C)]].
    destruct (ii_proto i) eqn:P.
    + destruct (conf_bfd j) eqn:Q; auto. exfalso. assert (N : PNone <> PFalse) by discriminate. specialize (C N).
      assert (X : Some b0 <> None) by discriminate. apply C in X. rewrite (NB i Hi) in X. destruct X as [_ [X _]]. discriminate X.
    + rewrite (PF eq_refl). auto.
    + destruct (conf_bfd j) eqn:Q; auto. exfalso. assert (N : PSome d <> PFalse) by discriminate. specialize (C N).
      assert (X : Some b0 <> None) by discriminate. apply C in X. rewrite (NB i Hi) in X. destruct X as [_ [X _]]. discriminate X.
Qed.

(* C80: IS-IS. BFD for an address family of an interface needs an address of the family and is taken from the interface
   or, when the interface has a flag or nothing, from the node. *)
Definition want_af (pick : bfdval -> option bool) (node : bfdval) (i : igi) : option bool :=
  match conf_bfd i with
  | Some (BfdFlag false) => None
  | Some (BfdFlag true) | None => pick node
  | Some x => pick x
  end.
Definition b4 (b : bfdval) : option bool := match b with BfdAf x _ => x | _ => None end.
Definition b6 (b : bfdval) : option bool := match b with BfdAf _ y => y | _ => None end.

Theorem isis_bfd_interfaces : forall b4v b6v af is nb af' js,
  multiprotocol_bfd true (Some (BfdAf b4v b6v)) af is = (nb, af', js) ->
  af' = af /\
  Forall2 (fun i j => same_intf i j /\ conf_passive j = conf_passive i /\ conf_ntype j = conf_ntype i /\
    (ii_proto i <> PFalse ->
      let x := match ii_v4 i with Some _ => want_af b4 (BfdAf b4v b6v) i | None => None end in
      let y := match ii_v6 i with Some _ => want_af b6 (BfdAf b4v b6v) i | None => None end in
      match conf_bfd j with
      | Some c => ii_bfd_off i = false /\ c = BfdAf x y /\ (x <> None \/ y <> None)
      | None => ii_bfd_off i = true \/ (x = None /\ y = None)
      end)) is js.
Proof.
  intros b4v b6v af is nb af' js. unfold multiprotocol_bfd. intro H. injection H as _ <- <-. split; [reflexivity|].
  apply F2_map_r. intro i. destruct (mbfd_intf_only (BfdAf b4v b6v) i) as (S & _ & P & N).
  split; [exact S|]. split; [auto|]. split; [auto|]. intros NF.
  assert (CB : conf_bfd i = pd_bfd (proto_data i)) by (unfold conf_bfd, proto_data; destruct (ii_proto i); auto; contradiction).
  assert (E : conf_bfd (mbfd_intf (BfdAf b4v b6v) i) =
    (let b := match pd_bfd (proto_data i) with Some b => b | None => BfdAf b4v b6v end in
     if ii_bfd_off i || negb (bfd_truthy b) then None
     else let c := drop_af i (match b with BfdFlag _ => BfdAf b4v b6v | x => x end) in if bfd_truthy c then Some c else None)).
  { unfold mbfd_intf. destruct (ii_proto i); [|contradiction|]; rewrite conf_bfd_close; reflexivity. }
  cbv zeta in E |- *. rewrite E. unfold want_af. rewrite CB.
  destruct (ii_bfd_off i); cbn [orb]; [left; reflexivity|].
  destruct (pd_bfd (proto_data i)) as [[[|]|[x|] [y|]]|]; cbn [bfd_truthy negb drop_af b4 b6];
    destruct (ii_v4 i), (ii_v6 i); cbn [bfd_truthy];
    try (destruct b4v, b6v; cbn [bfd_truthy negb drop_af]); cbn [bfd_truthy negb drop_af];
    try (right; split; reflexivity); try (split; [reflexivity | split; [reflexivity|]]; try (left; discriminate); right; discriminate).
Qed.

(* ---- RIP timers ---- *)

(* C80: RIP timers are configured all or none; configured values are kept *)
Theorem rip_timers : forall t, match adjust_rip_timers t with
  | None => t = None
  | Some r => exists x u to g, t = Some x /\ r = mk_rt (Some u) (Some to) (Some g) /\
      (rt_update x = Some u \/ (rt_update x = None /\ u = 30%Z)) /\
      (rt_timeout x = Some to \/ (rt_timeout x = None /\ to = (6 * u)%Z)) /\
      (rt_garbage x = Some g \/ (rt_garbage x = None /\ g = (4 * u)%Z))
  end.
Proof.
  intros [x|]; cbn [adjust_rip_timers]; [|reflexivity].
  do 4 eexists. split; [reflexivity|]. split; [reflexivity|].
  destruct (rt_update x), (rt_timeout x), (rt_garbage x); repeat split; auto; right; split; auto; lia.
Qed.

(* ---- the order of nodes ---- *)

(* the result of a node could depend on the order of nodes in the lab *)
Theorem igp_node_order_refuted : exists f lab n1 n2,
  dget "a" (fst (igp_lab k_ospf "ospf" f ["a"; "b"] lab)) = Some n1 /\
  dget "a" (fst (igp_lab k_ospf "ospf" f ["b"; "a"] lab)) = Some n2 /\
  dget "red" (in_vrfs n1) <> dget "red" (in_vrfs n2) /\ In "ospf" (in_modules n1) /\ ~ In "ospf" (in_modules n2).
Proof.
  exists (fun _ => mk_ifeat false false false true),
    [("a", mk_inode [mk_igi "eth1" "" "p2p" (Some (IAddr "10.0.0.1/30")) None false false (Some "red") ["b"] false PNone] true false None None
             [("red", VNone)] ["ospf"; "vrf"] None);
     ("b", mk_inode [mk_igi "eth1" "" "p2p" (Some (IAddr "10.0.0.2/30")) None false false None ["a"] false PFalse] true false None None [] ["ospf"] None)].
  do 2 eexists. split; [reflexivity|]. split; [reflexivity|].
  split; [discriminate|]. split; [left; reflexivity|]. intros [X|[]]. discriminate X.
Qed.

(* ---- examples ---- *)

Definition ex_feat : ifeatures := mk_ifeat false false false true.
Definition ex_i (n role ty : string) (v4 v6 : option iaddr) (vrf : option string) (ng : list string) (p : pstate) : igi :=
  mk_igi n role ty v4 v6 false false vrf ng false p.
Definition ex_run (s : string) : bool := memS s ["r1"; "r2"; "c"].
Definition ex_node : inode := mk_inode
  [ex_i "eth1" "" "p2p" (Some (IBool true)) (Some (IBool true)) None ["r2"] PNone;
   ex_i "eth2" "stub" "lan" (Some (IAddr "172.16.0.1/24")) None None ["h1"] PNone;
   ex_i "eth3" "external" "p2p" (Some (IAddr "10.1.0.1/30")) None None ["x"] PNone;
   ex_i "eth4" "" "p2p" (Some (IAddr "10.2.0.1/30")) None (Some "red") ["c"] (PSome (mk_pd None None (Some "broadcast") false));
   ex_i "eth5" "" "lan" (Some (IAddr "172.16.1.1/24")) None (Some "blue") ["h1"] PNone]
  true false None (Some (BfdFlag true)) [("red", VNone); ("blue", VNone); ("green", VFalse)] ["ospf"; "bfd"; "vrf"] None.

(* OSPF runs over two global interfaces and one VRF *)
Example ex_igp_node :
  snd (igp_node k_ospf "ospf" ex_feat ex_run ex_node) = [] /\
  map (fun i => match ii_proto i with PNone => "-" | _ => ii_name i end) (in_intfs (fst (igp_node k_ospf "ospf" ex_feat ex_run ex_node))) = ["eth1"; "eth2"; "-"; "-"; "-"] /\
  map (fun i => (conf_passive i, conf_ntype i, conf_bfd i)) (in_intfs (fst (igp_node k_ospf "ospf" ex_feat ex_run ex_node))) =
    [(Some false, Some "point-to-point", Some (BfdFlag true)); (Some true, Some "point-to-point", Some (BfdFlag true));
     (None, None, None); (None, None, None); (None, None, None)] /\
  map (fun kv => (fst kv, match snd kv with VData a l => Some (a, map ii_name l) | _ => None end)) (in_vrfs (fst (igp_node k_ospf "ospf" ex_feat ex_run ex_node))) =
    [("red", Some (Some true, ["eth4"])); ("blue", None); ("green", None)] /\
  in_data (fst (igp_node k_ospf "ospf" ex_feat ex_run ex_node)) = Some (true, true) /\
  in_modules (fst (igp_node k_ospf "ospf" ex_feat ex_run ex_node)) = ["ospf"; "bfd"; "vrf"].
Proof. repeat split; reflexivity. Qed.

Example ex_igp_wf : vrfs_wf (in_vrfs ex_node).
Proof. intros v a l. unfold ex_node, in_vrfs. cbn [dget]. repeat (destruct (String.eqb v _); [discriminate|]). discriminate. Qed.

(* the interface in the VRF has a configured network type *)
Example ex_igp_vrf_type : exists n' ifs j d, igp_node k_ospf "ospf" ex_feat ex_run ex_node = (n', []) /\
  dget "red" (in_vrfs n') = Some (VData (Some true) ifs) /\ In j ifs /\ runs_on n' j d /\ pd_ntype d = Some "broadcast" /\ ii_name j = "eth4".
Proof.
  do 4 eexists. split; [reflexivity|]. split; [reflexivity|]. split; [left; reflexivity|].
  split; [split; [reflexivity | right; exists "red"; do 2 eexists; split; [reflexivity | left; reflexivity]]|]. split; reflexivity.
Qed.

(* an unnumbered OSPF LAN with two neighbors is refused *)
Example ex_igp_multiaccess :
  snd (igp_node k_ospf "ospf" ex_feat ex_run (mk_inode [ex_i "eth1" "" "lan" (Some (IBool true)) None None ["r2"; "c"] PNone] true false None None [] ["ospf"] None))
    = [IgpMultiaccess "eth1"].
Proof. reflexivity. Qed.

(* the last OSPF interface is gone: so is the module *)
Example ex_igp_removed :
  let n := fst (igp_node k_ospf "ospf" ex_feat ex_run (mk_inode [ex_i "eth1" "external" "p2p" (Some (IAddr "10.0.0.1/30")) None None ["r2"] PNone] true false None None [] ["ospf"; "bgp"] None)) in
  in_data n = None /\ in_modules n = ["bgp"].
Proof. split; reflexivity. Qed.

(* IS-IS with the BFD flag and no configured address families *)
Example ex_isis_bfd :
  let n := mk_inode [ex_i "eth1" "" "p2p" (Some (IAddr "10.0.0.1/30")) None None ["r2"] PNone] true false None (Some (BfdFlag true)) [] ["isis"; "bfd"] None in
  snd (igp_node k_isis "isis" ex_feat ex_run n) = [] /\ in_modules (fst (igp_node k_isis "isis" ex_feat ex_run n)) = ["bfd"] /\
  in_modules (fst (igp_node k_isis "isis" ex_feat ex_run (mk_inode (in_intfs n) true false None None [] ["isis"; "bfd"] None))) = ["isis"; "bfd"].
Proof. repeat split; reflexivity. Qed.

(* address families of IS-IS BFD *)
Example ex_isis_bfd_af :
  map conf_bfd (snd (multiprotocol_bfd true (Some (BfdAf (Some true) (Some true))) None
    [ex_i "eth1" "" "p2p" (Some (IAddr "10.0.0.1/30")) None None ["r2"] PNone;
     ex_i "eth2" "" "p2p" (Some (IAddr "10.0.0.1/30")) (Some (IBool true)) None ["r2"] (PSome (mk_pd (Some (BfdFlag false)) None None false));
     ex_i "eth3" "" "p2p" (Some (IAddr "10.0.0.1/30")) (Some (IBool true)) None ["r2"] (PSome (mk_pd (Some (BfdFlag true)) None None false))]))
  = [Some (BfdAf (Some true) None); None; Some (BfdAf (Some true) (Some true))].
Proof. reflexivity. Qed.

(* a lab: stub LAN of two routers, active on both *)
Example ex_igp_lab :
  let lab := [("r1", mk_inode [ex_i "eth1" "stub" "lan" (Some (IAddr "10.0.0.1/24")) None None ["r2"] PNone] true false None None [] ["ospf"] None);
              ("r2", mk_inode [ex_i "eth1" "stub" "lan" (Some (IAddr "10.0.0.2/24")) None None ["r1"] PNone] true false None None [] ["ospf"] None)] in
  snd (igp_lab k_ospf "ospf" (fun _ => ex_feat) ["r1"; "r2"] lab) = [] /\
  map (fun kv => (in_modules (snd kv), map conf_passive (in_intfs (snd kv)))) (fst (igp_lab k_ospf "ospf" (fun _ => ex_feat) ["r1"; "r2"] lab))
   = [(["ospf"], [Some false]); (["ospf"], [Some false])].
Proof. split; reflexivity. Qed.

Example ex_rip_timers :
  adjust_rip_timers (Some (mk_rt (Some 10%Z) None (Some 50%Z))) = Some (mk_rt (Some 10%Z) (Some 60%Z) (Some 50%Z)).
Proof. reflexivity. Qed.

Print Assumptions igp_global_interfaces.
Print Assumptions igp_vrf_instances.
Print Assumptions igp_passive_and_type.
Print Assumptions igp_network_type_valid.
Print Assumptions igp_passive_agree.
Print Assumptions igp_address_families.
Print Assumptions igp_module_kept.
Print Assumptions isis_bfd_flag_disables_isis.
Print Assumptions ospf_unnumbered_neighbors.
Print Assumptions bfd_interfaces.
Print Assumptions bfd_without_module_refuted.
Print Assumptions bfd_without_module.
Print Assumptions isis_bfd_interfaces.
Print Assumptions rip_timers.
Print Assumptions igp_node_order_refuted.
