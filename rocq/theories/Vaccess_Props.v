(* Access and native VLANs of links, VLANs without links (netsim/modules/vlan.py) *)
From Coq Require Import String ZArith Bool List Lia Sorting.
From Verif Require Import Base Box_Model Box_Props Vlan_Model Vlink_Model Vlink_Props Vlinkrule_Props Vmember_Props.
Import ListNotations.
Local Open Scope nat_scope.
Local Open Scope string_scope.
Local Open Scope list_scope.

(* ---- specification: access links ---- *)

(* the VLAN of an interface: access or native *)
Definition own_vlan (i : vif) (v : string) : Prop :=
  v <> "" /\ (raw (vf_vlan i) "access" = Some (VStr v) \/
    ((forall s, s <> "" -> raw (vf_vlan i) "access" <> Some (VStr s)) /\ raw (vf_vlan i) "native" = Some (VStr v))).

(* the forwarding mode of an interface *)
Definition intf_mode (t : vtp) (i : vif) (m : val) : Prop :=
  (exists v, own_vlan i v /\ fwd_mode t (vf_node i) v [dget "_vlan_mode" (vf_data i); raw (vf_vlan i) "mode"] m) \/
  ((forall v, ~ own_vlan i v) /\ m = VStr "irb").

Definition aware (t : vtp) (n : string) : Prop := exists nd, dget n (tv_nodes t) = Some nd /\ nd_aware nd = true.

Record access_if (t : vtp) (rt : bool) (i i' : vif) : Prop := {
  ai_node : vf_node i' = vf_node i;
  ai_vlan : vf_vlan i' = match vf_vlan i with Some (VDict d) => if rt then Some (VDict (dset "mode" (VStr "route") d)) else Some (VDict d) | o => o end;
  ai_mode : vf_vlan i <> None -> exists m, dget "_vlan_mode" (vf_data i') = Some m /\ intf_mode t i m;
  ai_none : vf_vlan i = None -> dget "_vlan_mode" (vf_data i') = dget "_vlan_mode" (vf_data i);
  ai_off : aware t (vf_node i) -> dget "_vlan_mode" (vf_data i') = Some (VStr "bridge") ->
    dget "ipv4" (vf_data i') = Some (VBool false) /\ dget "ipv6" (vf_data i') = Some (VBool false);
  ai_on : ~ (aware t (vf_node i) /\ dget "_vlan_mode" (vf_data i') = Some (VStr "bridge")) ->
    dget "ipv4" (vf_data i') = dget "ipv4" (vf_data i) /\ dget "ipv6" (vf_data i') = dget "ipv6" (vf_data i);
  ai_rest : forall k, ~ In k ["_vlan_mode"; "ipv4"; "ipv6"] -> dget k (vf_data i') = dget k (vf_data i)
}.

(* an attribute of the link and an attribute of the VLAN: dictionaries are merged, other link attributes are kept *)
Definition addv (g o : option val) : option val :=
  match o, g with
  | None, _ => g
  | Some x, Some y => if is_dict x && is_dict y then Some (merge y x) else Some x
  | Some x, None => Some x
  end.

(* all interfaces with a forwarding mode are routed *)
Definition all_routed (l : vlk) : Prop :=
  (exists i m, In i (vk_ifs l) /\ dget "_vlan_mode" (vf_data i) = Some m /\ m <> VNull) /\
  forall i m, In i (vk_ifs l) -> dget "_vlan_mode" (vf_data i) = Some m -> m <> VNull -> m = VStr "route".

(* the attribute with the VLANs of the link: access, or native on trunks *)
Definition link_attr (l : vlk) (a : string) : Prop :=
  (used "access" l /\ a = "access") \/ (~ used "access" l /\ used "native" l /\ a = "native").

(* where the prefix and the type come from: the global VLAN, or the VLAN of a node that uses a local VLAN *)
Definition vlan_source (t : vtp) (l : vlk) (a v : string) (d : dict val) : Prop :=
  dget v (tv_vlans t) = Some d \/
  (dget v (tv_vlans t) = None /\ exists i w, In i (vk_ifs l) /\ uses a (vif_obj i) w /\ ~ In w (dkeys (tv_vlans t)) /\
     d = match node_vlan t (vf_node i) v with Some x => x | None => [] end).

(* a routed link, and a link in a VLAN *)
Definition routed_link (t : vtp) (v : string) (l l' : vlk) : Prop :=
  (forall k, k <> "vlan" -> dget k (vk_data l') = addv (glob t v k) (dget k (vk_data l))) /\
  exists x, vk_vlan l' = Some (VDict x) /\ dget "mode" x = Some (VStr "route") /\
    forall a, a <> "mode" -> dget a x = raw (addv (glob t v "vlan") (vk_vlan l)) a.
Definition vlan_link (t : vtp) (v : string) (d : dict val) (l l' : vlk) : Prop :=
  vk_vlan l' = addv (glob t v "vlan") (vk_vlan l) /\
  dget "prefix" (vk_data l') = orv (dget "prefix" d) (addv (glob t v "prefix") (dget "prefix" (vk_data l))) /\
  dget "type" (vk_data l') = orv (addv (glob t v "type") (dget "type" (vk_data l))) (orv (dget "type" d) (Some (VStr "lan"))) /\
  dget "vlan_name" (vk_data l') = Some (VStr v) /\
  forall k, ~ In k ["prefix"; "type"; "vlan_name"; "vlan"] -> dget k (vk_data l') = addv (glob t v k) (dget k (vk_data l)).

(* ---- lemmas ---- *)

Lemma first_set_vget : forall a o k y r dflt m, first_set (a :: vget o k :: y :: r) dflt m <-> first_set (a :: raw o k :: y :: r) dflt m.
Proof.
  intros a o k y r dflt m. destruct (vget_set o k) as [[z [Y1 [Y2 Y3]]]|[Y1 Y2]]; rewrite Y1.
  - rewrite Y2. tauto.
  - assert (N : ~ is_set None) by (intros [x [Q _]]; discriminate Q).
    rewrite <- (first_set_skip a None y r dflt m N), <- (first_set_skip a (raw o k) y r dflt m Y2). tauto.
Qed.

Lemma vget_str : forall o a s, vget o a = Some (VStr s) <-> s <> "" /\ raw o a = Some (VStr s).
Proof.
  intros o a s. rewrite vget_raw. destruct (raw o a) as [x|].
  - destruct (truthy x) eqn:T.
    + split; [intros H; split; [|auto]|tauto]. intros ->. injection H as ->. discriminate T.
    + split; [discriminate|]. intros [N H]. injection H as ->. cbn [truthy] in T. destruct (String.eqb_spec s ""); [contradiction|discriminate T].
  - split; [discriminate|]. intros [_ H]. discriminate H.
Qed.

Definition mode_name (i : vif) : option string :=
  match vget (vf_vlan i) "access" with Some (VStr s) => Some s | _ => match vget (vf_vlan i) "native" with Some (VStr s) => Some s | _ => None end end.

Lemma mode_name_spec : forall i, match mode_name i with Some v => own_vlan i v | None => forall v, ~ own_vlan i v end.
Proof.
  intros i. unfold mode_name. destruct (vget (vf_vlan i) "access") as [x|] eqn:A.
  - assert (D : (exists s, x = VStr s) \/ forall s, x <> VStr s) by (destruct x as [| | |s| |]; eauto; right; discriminate).
    destruct D as [[s ->]|D].
    + apply vget_str in A. split; tauto.
    + assert (NA : forall s, s <> "" -> raw (vf_vlan i) "access" <> Some (VStr s)).
      { intros s S R. assert (Q : vget (vf_vlan i) "access" = Some (VStr s)) by (apply vget_str; auto). rewrite A in Q. injection Q as ->. apply (D s). auto. }
      assert (E : match x with VStr s => Some s | _ => match vget (vf_vlan i) "native" with Some (VStr s) => Some s | _ => None end end =
                  match vget (vf_vlan i) "native" with Some (VStr s) => Some s | _ => None end) by (destruct x as [| | |s| |]; auto; exfalso; apply (D s); auto).
      rewrite E. destruct (vget (vf_vlan i) "native") as [[| | |s| |]|] eqn:N.
      4:{ apply vget_str in N. split; [tauto|]. right. tauto. }
      all: intros v [V [Q|[_ Q]]]; [exact (NA v V Q)|]; assert (QQ : vget (vf_vlan i) "native" = Some (VStr v)) by (apply vget_str; auto); congruence.
  - assert (NA : forall s, s <> "" -> raw (vf_vlan i) "access" <> Some (VStr s)).
    { intros s S R. assert (Q : vget (vf_vlan i) "access" = Some (VStr s)) by (apply vget_str; auto). congruence. }
    destruct (vget (vf_vlan i) "native") as [[| | |s| |]|] eqn:N.
    4:{ apply vget_str in N. split; [tauto|]. right. tauto. }
    all: intros v [V [Q|[_ Q]]]; [exact (NA v V Q)|]; assert (QQ : vget (vf_vlan i) "native" = Some (VStr v)) by (apply vget_str; auto); congruence.
Qed.

Lemma mode_spec : forall t i, intf_mode t i (compute_mode t (vf_node i) (mode_name i) (dget "_vlan_mode" (vf_data i)) (vget (vf_vlan i) "mode")).
Proof.
  intros t i. pose proof (mode_name_spec i) as M. destruct (mode_name i) as [v|].
  - left. exists v. split; [auto|]. destruct M as [V _]. pose proof (compute_mode_set t (vf_node i) v (dget "_vlan_mode" (vf_data i)) (vget (vf_vlan i) "mode") V) as C.
    unfold fwd_mode in *. cbn [app] in *. apply first_set_vget. exact C.
  - right. auto.
Qed.

Lemma aware_iff : forall t n, nd_aware (node_of t n) = true <-> aware t n.
Proof.
  intros t n. unfold aware, node_of. destruct (dget n (tv_nodes t)) as [nd|].
  - split; [eauto|]. intros [x [Q A]]. injection Q as <-. auto.
  - split; [discriminate|]. intros [x [Q _]]. discriminate Q.
Qed.

Lemma access_if_spec : forall t i (rt : bool), access_if t rt i (bridge_intf t ((if rt then set_route else (fun x => x)) (set_intf_mode t i))).
Proof.
  intros t i rt. set (i1 := set_intf_mode t i). set (i2 := (if rt then set_route else (fun x => x)) i1).
  assert (A1 : vf_node i1 = vf_node i /\ vf_vlan i1 = vf_vlan i) by (unfold i1, set_intf_mode; destruct (vf_vlan i) eqn:V; auto).
  assert (A2 : vf_node i2 = vf_node i1 /\ vf_data i2 = vf_data i1 /\
     vf_vlan i2 = match vf_vlan i1 with Some (VDict d) => if rt then Some (VDict (dset "mode" (VStr "route") d)) else Some (VDict d) | o => o end).
  { unfold i2. destruct rt; [unfold set_route|]; destruct (vf_vlan i1) as [[| | | | |d]|] eqn:V; auto. }
  destruct A1 as [N1 V1], A2 as [N2 [D2 V2]].
  assert (D1 : forall k, k <> "_vlan_mode" -> dget k (vf_data i1) = dget k (vf_data i)).
  { intros k K. unfold i1, set_intf_mode. destruct (vf_vlan i); [cbn [vf_data]; apply dget_dset_other; auto|auto]. }
  assert (BI : exists b : bool, (b = true <-> aware t (vf_node i) /\ dget "_vlan_mode" (vf_data i2) = Some (VStr "bridge")) /\
     bridge_intf t i2 = if b then mk_vif (vf_node i2) (vf_vlan i2) (dset "ipv6" (VBool false) (dset "ipv4" (VBool false) (vf_data i2))) else i2).
  { unfold bridge_intf. eexists. split; [|reflexivity]. rewrite andb_true_iff, aware_iff, N2, N1.
    destruct (dget "_vlan_mode" (vf_data i2)) as [m|]; [rewrite is_str_iff|]; intuition congruence. }
  destruct BI as [b [B1 B2]]. rewrite B2.
  assert (G : forall k, ~ In k ["ipv4"; "ipv6"] -> dget k (vf_data (if b then mk_vif (vf_node i2) (vf_vlan i2) (dset "ipv6" (VBool false) (dset "ipv4" (VBool false) (vf_data i2))) else i2)) = dget k (vf_data i1)).
  { intros k K. cbn in K. rewrite <- D2. destruct b; [cbn [vf_data]; rewrite !dget_dset_other by (intros ->; tauto); auto|auto]. }
  constructor.
  - destruct b; cbn [vf_node]; congruence.
  - rewrite V1 in V2. rewrite <- V2. destruct b; auto.
  - intros NV. rewrite G by (cbn; intuition discriminate). exists (compute_mode t (vf_node i) (mode_name i) (dget "_vlan_mode" (vf_data i)) (vget (vf_vlan i) "mode")).
    split; [|apply mode_spec]. unfold i1, set_intf_mode. fold (mode_name i). destruct (vf_vlan i); [|congruence]. cbn [vf_data]. apply dget_dset_same.
  - intros NV. rewrite G by (cbn; intuition discriminate). unfold i1, set_intf_mode. rewrite NV. auto.
  - rewrite G by (cbn; intuition discriminate). intros A BR. rewrite D2 in B1. destruct b; [|assert (false = true) by (apply B1; auto); discriminate].
    cbn [vf_data]. rewrite dget_dset_same. rewrite dget_dset_other by discriminate. rewrite dget_dset_same. auto.
  - rewrite G by (cbn; intuition discriminate). intros NB. rewrite D2 in B1. destruct b; [exfalso; apply NB; apply B1; auto|]. rewrite D2, !D1 by discriminate. auto.
  - intros k K. cbn in K. rewrite G by (cbn; tauto). apply D1. intros ->. tauto.
Qed.

(* the attributes of the global VLAN *)
Lemma add_vlan_spec : forall t v g l l', dget v (tv_vlans t) = Some g -> NoDup (dkeys g) -> memS "mode" (tv_skip t) = true ->
  add_vlan_data t g l = Some l' ->
  vk_name l' = vk_name l /\ vk_index l' = vk_index l /\ vk_ifs l' = vk_ifs l /\ vk_vlan l' = addv (glob t v "vlan") (vk_vlan l) /\
  forall k, k <> "vlan" -> dget k (vk_data l') = addv (glob t v k) (dget k (vk_data l)).
Proof.
  intros t v g l l' G ND SK H. unfold add_vlan_data in H. set (vd := filter (fun kv => negb (memS (fst kv) (tv_skip t))) g) in *.
  assert (GL : forall k, glob t v k = dget k vd).
  { intros k. unfold glob. rewrite G. unfold vd. clear. induction g as [|[a x] g IH]; cbn [filter fst]; [destruct (memS k (tv_skip t)); auto|].
    cbn [dget]. destruct (memS a (tv_skip t)) eqn:M; cbn [negb].
    - rewrite <- IH. destruct (String.eqb_spec k a) as [->|N]; [rewrite M; auto|auto].
    - cbn [dget]. destruct (String.eqb_spec k a) as [->|N]; [rewrite M; auto|auto]. }
  assert (NDV : NoDup (dkeys vd)).
  { unfold vd. clear - ND. unfold dkeys in *. induction g as [|[a x] g IH]; cbn [filter fst map] in *; [constructor|]. inversion ND as [|? ? N1 N2]; subst.
    destruct (negb (memS a (tv_skip t))); [|auto]. cbn [map fst]. constructor; [|auto]. intros I. apply N1. apply in_map_iff in I. destruct I as [y [Y I]].
    apply filter_In in I. apply in_map_iff. exists y. tauto. }
  assert (FM : fix_mode vd = Some vd).
  { unfold fix_mode. rewrite <- GL. unfold glob. rewrite G, SK. auto. }
  rewrite FM in H. unfold bind in H. injection H as <-. rewrite !GL. setoid_rewrite GL. clear GL FM G ND. clearbody vd. revert l.
  induction vd as [|[a x] vd IH]; intros l; cbn [fold_left].
  - cbn [dget addv]. repeat split; auto.
    + destruct (vk_vlan l); auto.
    + intros k _. destruct (dget k (vk_data l)); auto.
  - change (dkeys ((a, x) :: vd)) with (a :: dkeys vd) in NDV. inversion NDV as [|? ? N1 N2]; subst. assert (Z : dget a vd = None) by (apply dget_None; auto).
    cbn [fst snd]. destruct (IH N2 (if String.eqb a "vlan" then match vk_vlan l with None => set_vlan l (Some x) | Some y => if is_dict y && is_dict x then set_vlan l (Some (merge x y)) else l end
      else match dget a (vk_data l) with None => set_data l (dset a x (vk_data l)) | Some y => if is_dict y && is_dict x then set_data l (dset a (merge x y) (vk_data l)) else l end))
      as [I1 [I2 [I3 [I4 I5]]]]. cbn [fst snd] in *. rewrite I1, I2, I3, I4. cbn [dget]. rewrite (String.eqb_sym "vlan" a). destruct (String.eqb_spec a "vlan") as [->|NA].
    + rewrite Z. destruct (vk_vlan l) as [y|] eqn:V.
      * destruct (is_dict y && is_dict x) eqn:B; cbn [set_vlan vk_name vk_index vk_ifs vk_vlan vk_data]; rewrite ?V; cbn [addv]; rewrite B; repeat split; auto;
          intros k K; rewrite I5 by auto; destruct (String.eqb_spec k "vlan"); try contradiction; auto.
      * cbn [set_vlan vk_name vk_index vk_ifs vk_vlan vk_data addv]. repeat split; auto. intros k K. rewrite I5 by auto. destruct (String.eqb_spec k "vlan"); [contradiction|auto].
    + assert (DA : forall l2, (forall k, k <> a -> dget k (vk_data l2) = dget k (vk_data l)) -> dget a (vk_data l2) = addv (Some x) (dget a (vk_data l)) ->
         forall k, addv (dget k vd) (dget k (vk_data l2)) = addv (if String.eqb k a then Some x else dget k vd) (dget k (vk_data l))).
      { intros l2 O1 O2 k. destruct (String.eqb_spec k a) as [->|N]; [rewrite Z, O2; destruct (addv (Some x) (dget a (vk_data l))); auto|rewrite O1; auto]. }
      destruct (dget a (vk_data l)) as [y|] eqn:V.
      * destruct (is_dict y && is_dict x) eqn:B; cbn [set_data vk_name vk_index vk_ifs vk_vlan vk_data]; repeat split; auto; intros k K; rewrite I5 by auto; cbn [set_data vk_data].
        -- apply (DA (set_data l (dset a (merge x y) (vk_data l)))); [intros q Q; apply dget_dset_other; auto|]. cbn [set_data vk_data]. rewrite dget_dset_same. cbn [addv]. rewrite B. auto.
        -- apply (DA l); [auto|]. rewrite V. cbn [addv]. rewrite B. auto.
      * cbn [set_data vk_name vk_index vk_ifs vk_vlan vk_data]. repeat split; auto. intros k K. rewrite I5 by auto.
        apply (DA (set_data l (dset a x (vk_data l)))); [intros q Q; apply dget_dset_other; auto|]. cbn [set_data vk_data]. rewrite dget_dset_same. auto.
Qed.

Lemma has_uses_str : forall t a o, In a ["access"; "native"] -> accepted t o -> has a o -> exists v, uses a o v.
Proof.
  intros t a [w o] A AC [d [x [Q X]]]. cbn [snd] in Q. subst o.
  assert (R : right_type a x).
  { destruct (conv a x) eqn:C; [apply conv_right; congruence|]. exfalso. apply (AC (KType w a)). exists (VDict d). split; [auto|].
    econstructor; [cbn in A |- *; intuition|exact X|]. intros R. apply conv_right in R. congruence. }
  assert (S : exists s, x = VStr s) by (destruct A as [<-|[<-|[]]]; exact R). destruct S as [s ->]. exists s, d, (VStr s). split; [auto|]. split; [auto|constructor].
Qed.

Lemma used_list : forall t l0 l1 va e a, check_link t l0 = (l1, va, true, e) -> In a ["access"; "native"] ->
  (used a l0 /\ exists c, dget a va = Some c /\ co_list c = colist a va /\ colist a va <> [] /\
     (forall v, In v (co_list c) <-> vlan_used a l0 v) /\
     (forall n, In n (co_nodes c) <-> exists i w, In i (vk_ifs l0) /\ vf_node i = n /\ uses a (vif_obj i) w /\ ~ In w (dkeys (tv_vlans t)))) \/
  (~ used a l0 /\ dget a va = None /\ colist a va = []).
Proof.
  intros t l0 l1 va e a CH A. assert (A3 : In a ["access"; "native"; "trunk"]) by (cbn in *; intuition).
  destruct (link_vlans_collected _ _ _ _ _ CH a A3) as [M C]. unfold colist.
  pose proof (link_vlan_errors_exact _ _ _ _ _ _ CH) as [_ [AC _]]. pose proof (proj1 AC eq_refl) as ACC.
  destruct (dget a va) as [c|] eqn:D.
  - left. assert (U : used a l0) by (apply M; unfold dmem; rewrite D; auto). split; [auto|]. exists c. split; [auto|]. split; [auto|].
    destruct (C c eq_refl) as [C1 [C2 [C3 _]]]. split; [|split; [exact C1|exact C3]].
    destruct U as [o [I H]]. destruct (has_uses_str t a o A (ACC o I) H) as [v V].
    assert (Q : In v (co_list c)) by (apply C1; eauto). intros E. rewrite E in Q. destruct Q.
  - right. split; [|auto]. intros U. apply M in U. unfold dmem in U. rewrite D in U. discriminate U.
Qed.

Lemma set_intf_routed : forall is, routed (map (fun i => dget "_vlan_mode" (vf_data i)) is) = true <->
  (exists i m, In i is /\ dget "_vlan_mode" (vf_data i) = Some m /\ m <> VNull) /\
  forall i m, In i is -> dget "_vlan_mode" (vf_data i) = Some m -> m <> VNull -> m = VStr "route".
Proof.
  intros is. unfold routed. cbv zeta.
  set (fm := flat_map (fun o => match o with Some VNull => [] | Some m => [m] | None => [] end) (map (fun i => dget "_vlan_mode" (vf_data i)) is)).
  assert (IN : forall m, In m fm <-> m <> VNull /\ exists i, In i is /\ dget "_vlan_mode" (vf_data i) = Some m).
  { intros m. unfold fm. rewrite in_flat_map. split.
    - intros [o [O M]]. apply in_map_iff in O. destruct O as [i [E I]]. destruct o as [x|]; [|destruct M]. destruct x; [destruct M|..]; destruct M as [<-|[]]; (split; [discriminate|eauto]).
    - intros [N [i [I E]]]. exists (Some m). split; [apply in_map_iff; eauto|]. destruct m; try congruence; now left. }
  clearbody fm. assert (FA : forallb (is_str "route") fm = true <-> forall i m, In i is -> dget "_vlan_mode" (vf_data i) = Some m -> m <> VNull -> m = VStr "route").
  { rewrite forallb_forall. split.
    - intros H i m I E N. apply is_str_iff. apply H. apply IN. eauto.
    - intros H m M. apply is_str_iff. apply IN in M. destruct M as [N [i [I E]]]. eauto. }
  destruct fm as [|m r].
  - split; [discriminate|]. intros [[i [m [I [E N]]]] _]. exfalso. apply (IN m). split; eauto.
  - rewrite FA. split; [|tauto]. intros H. split; [|auto]. destruct (proj1 (IN m) (or_introl eq_refl)) as [N [i [I E]]]. eauto.
Qed.

Lemma copy_vlan_spec : forall v vd d,
  dget "prefix" (copy_vlan v vd d) = orv (dget "prefix" vd) (dget "prefix" d) /\
  dget "type" (copy_vlan v vd d) = orv (dget "type" d) (orv (dget "type" vd) (Some (VStr "lan"))) /\
  dget "vlan_name" (copy_vlan v vd d) = Some (VStr v) /\
  forall k, ~ In k ["prefix"; "type"; "vlan_name"] -> dget k (copy_vlan v vd d) = dget k d.
Proof.
  intros v vd d. unfold copy_vlan.
  set (d1 := match dget "prefix" vd with Some p => dset "prefix" p d | None => d end).
  assert (P : dget "prefix" d1 = orv (dget "prefix" vd) (dget "prefix" d)) by (unfold d1; destruct (dget "prefix" vd); [apply dget_dset_same|auto]).
  assert (O : forall k, k <> "prefix" -> dget k d1 = dget k d) by (intros k K; unfold d1; destruct (dget "prefix" vd); [apply dget_dset_other; auto|auto]).
  set (d2 := if dmem "type" d1 then d1 else dset "type" (match dget "type" vd with Some x => x | None => VStr "lan" end) d1). cbv zeta.
  assert (T : dget "type" d2 = orv (dget "type" d) (orv (dget "type" vd) (Some (VStr "lan")))).
  { unfold d2, dmem. rewrite (O "type") by discriminate. destruct (dget "type" d) as [x|] eqn:D; [rewrite O by discriminate; auto|].
    rewrite dget_dset_same. destruct (dget "type" vd); auto. }
  assert (O2 : forall k, k <> "type" -> dget k d2 = dget k d1) by (intros k K; unfold d2; destruct (dmem "type" d1); [auto|apply dget_dset_other; auto]).
  rewrite !dget_dset_same. rewrite !dget_dset_other by discriminate. split; [rewrite O2 by discriminate; auto|]. split; [auto|]. split; [auto|].
  intros k K. cbn in K. rewrite dget_dset_other by (intros ->; tauto). rewrite O2, O by (intros ->; tauto). auto.
Qed.

(* The second step of the link transformation: [a] is the attribute with the VLANs of the link, [v] one of them. Without
   an access or native VLAN the only change is an empty prefix on trunks without a prefix. *)
Theorem access_link_exact : forall pick t l0 l1 va e l, (forall x : list string, x <> [] -> In (pick x) x) ->
  memS "mode" (tv_skip t) = true -> (forall v g, dget v (tv_vlans t) = Some g -> NoDup (dkeys g)) ->
  (forall v, glob t v "vlan" = None \/ exists x, glob t v "vlan" = Some (VDict x)) ->
  check_link t l0 = (l1, va, true, e) -> (vk_vlan l = None \/ exists x, vk_vlan l = Some (VDict x)) ->
  exists l', access_link pick t va l = Some l' /\ vk_name l' = vk_name l /\ vk_index l' = vk_index l /\
    (~ used "access" l0 -> ~ used "native" l0 -> vk_ifs l' = vk_ifs l /\ vk_vlan l' = vk_vlan l /\
       (forall k, k <> "prefix" -> dget k (vk_data l') = dget k (vk_data l)) /\
       (used "trunk" l0 -> dmem "role" (vk_data l) = false -> dmem "prefix" (vk_data l) = false -> dmem "pool" (vk_data l) = false ->
          dget "prefix" (vk_data l') = Some (VDict [])) /\
       (~ (used "trunk" l0 /\ dmem "role" (vk_data l) = false /\ dmem "prefix" (vk_data l) = false /\ dmem "pool" (vk_data l) = false) ->
          dget "prefix" (vk_data l') = dget "prefix" (vk_data l))) /\
    (forall a, link_attr l0 a -> exists v rt, vlan_used a l0 v /\ (rt = true <-> all_routed l') /\ Forall2 (access_if t rt) (vk_ifs l) (vk_ifs l') /\
       (rt = true -> routed_link t v l l') /\ (rt = false -> exists d, vlan_source t l0 a v d /\ vlan_link t v d l l')).
Proof.
  intros pick t l0 l1 va e l PK SK ND GV CH LV.
  pose proof (used_list _ _ _ _ _ "access" CH (or_introl eq_refl)) as UA.
  pose proof (used_list _ _ _ _ _ "native" CH (or_intror (or_introl eq_refl))) as UN.
  assert (UT : dmem "trunk" va = true <-> used "trunk" l0) by (apply (link_vlans_collected _ _ _ _ _ CH "trunk"); cbn; auto).
  unfold access_link.
  assert (MAIN : forall a c, In a ["access"; "native"] -> link_attr l0 a -> dget a va = Some c -> co_list c <> [] -> access_vlan pick va = Some (pick (co_list c)) ->
     (forall v, In v (co_list c) <-> vlan_used a l0 v) ->
     (forall n, In n (co_nodes c) <-> exists i w, In i (vk_ifs l0) /\ vf_node i = n /\ uses a (vif_obj i) w /\ ~ In w (dkeys (tv_vlans t))) ->
     (forall d, set_prefix pick t va d = match dget (pick (co_list c)) (tv_vlans t) with
          | Some g => Some (copy_vlan (pick (co_list c)) g d)
          | None => match co_nodes c with [] => None | ns => Some (copy_vlan (pick (co_list c)) (match dget (pick (co_list c)) (nd_vlans (node_of t (pick ns))) with Some x => x | None => [] end) d) end
          end) ->
     exists l', match access_vlan pick va with
    | None => bind (set_prefix pick t va (vk_data l)) (fun d => Some (set_data l d))
    | Some v =>
        let l1 := set_ifs l (map (set_intf_mode t) (vk_ifs l)) in
        let rt := routed (map (fun i => dget "_vlan_mode" (vf_data i)) (vk_ifs l1)) in
        bind (match dget v (tv_vlans t) with Some g => add_vlan_data t g l1 | None => Some l1 end) (fun l2 =>
        bind (if rt then
                match vk_vlan l2 with
                | Some (VDict x) => Some (set_ifs (set_vlan l2 (Some (VDict (dset "mode" (VStr "route") x)))) (map set_route (vk_ifs l2)))
                | None => Some (set_ifs (set_vlan l2 (Some (VDict [("mode", VStr "route")]))) (map set_route (vk_ifs l2)))
                | Some _ => None
                end
              else bind (set_prefix pick t va (vk_data l2)) (fun d => Some (set_data l2 d))) (fun l3 =>
        Some (set_ifs l3 (map (bridge_intf t) (vk_ifs l3)))))
    end = Some l' /\ vk_name l' = vk_name l /\ vk_index l' = vk_index l /\
     exists v rt, vlan_used a l0 v /\ (rt = true <-> all_routed l') /\ Forall2 (access_if t rt) (vk_ifs l) (vk_ifs l') /\
       (rt = true -> routed_link t v l l') /\ (rt = false -> exists d, vlan_source t l0 a v d /\ vlan_link t v d l l')).
  { intros a c AA LA DA NE AV CL CN SP. rewrite AV. set (v := pick (co_list c)) in *. assert (VU : vlan_used a l0 v) by (apply CL; apply PK; auto).
    cbv zeta. set (la := set_ifs l (map (set_intf_mode t) (vk_ifs l))). set (rt := routed (map (fun i => dget "_vlan_mode" (vf_data i)) (vk_ifs la))).
    assert (L2 : exists l2, match dget v (tv_vlans t) with Some g => add_vlan_data t g la | None => Some la end = Some l2 /\
       vk_name l2 = vk_name l /\ vk_index l2 = vk_index l /\ vk_ifs l2 = map (set_intf_mode t) (vk_ifs l) /\ vk_vlan l2 = addv (glob t v "vlan") (vk_vlan l) /\
       forall k, k <> "vlan" -> dget k (vk_data l2) = addv (glob t v k) (dget k (vk_data l))).
    { destruct (dget v (tv_vlans t)) as [g|] eqn:G.
      - assert (X : exists l2, add_vlan_data t g la = Some l2).
        { unfold add_vlan_data, bind. assert (F : fix_mode (filter (fun kv => negb (memS (fst kv) (tv_skip t))) g) = Some (filter (fun kv => negb (memS (fst kv) (tv_skip t))) g)); [|rewrite F; eauto].
          unfold fix_mode. assert (Z : dget "mode" (filter (fun kv => negb (memS (fst kv) (tv_skip t))) g) = None); [|rewrite Z; auto].
          apply dget_None. intros I. apply in_map_iff in I. destruct I as [[k x] [E I]]. apply filter_In in I. cbn [fst] in *. subst k. rewrite SK in I. destruct I as [_ I]. discriminate I. }
        destruct X as [l2 X]. exists l2. split; [auto|]. destruct (add_vlan_spec _ _ _ _ _ G (ND _ _ G) SK X) as [A1 [A2 [A3 [A4 A5]]]].
        split; [auto|]. split; [auto|]. split; [auto|]. auto.
      - assert (GN : forall k, glob t v k = None) by (intros k; unfold glob; rewrite G; auto).
        exists la. split; [auto|]. split; [auto|]. split; [auto|]. split; [auto|]. split; [rewrite GN; unfold la; cbn [set_ifs vk_vlan]; destruct (vk_vlan l); auto|].
        intros k K. rewrite GN. unfold la. cbn [set_ifs vk_data]. destruct (dget k (vk_data l)); auto. }
    destruct L2 as [l2 [E2 [M1 [M2 [M3 [M4 M5]]]]]]. rewrite E2. unfold bind at 1.
    assert (AR : forall l3, vk_ifs l3 = map (bridge_intf t) (map (if rt then set_route else (fun x => x)) (map (set_intf_mode t) (vk_ifs l))) -> (rt = true <-> all_routed l3)).
    { intros l3 E. unfold rt, all_routed. rewrite E. rewrite set_intf_routed. unfold la. cbn [set_ifs vk_ifs]. generalize rt. intros b. generalize (map (set_intf_mode t) (vk_ifs l)). intros is.
      assert (KM : forall i, dget "_vlan_mode" (vf_data (bridge_intf t ((if b then set_route else (fun x => x)) i))) = dget "_vlan_mode" (vf_data i)).
      { intros i. assert (K1 : dget "_vlan_mode" (vf_data ((if b then set_route else (fun x => x)) i)) = dget "_vlan_mode" (vf_data i))
          by (destruct b; [unfold set_route; destruct (vf_vlan i) as [[| | | | |d]|]; auto|auto]).
        rewrite <- K1. unfold bridge_intf. destruct (nd_aware _ && _); [cbn [vf_data]; rewrite !dget_dset_other by discriminate; auto|auto]. }
      split.
      - intros [[i [m [I [D N]]]] F]. split.
        + exists (bridge_intf t ((if b then set_route else (fun x => x)) i)), m. split; [apply in_map, in_map; auto|]. rewrite KM. auto.
        + intros j m' J D' N'. apply in_map_iff in J. destruct J as [j1 [<- J]]. apply in_map_iff in J. destruct J as [j2 [<- J]]. rewrite KM in D'. eauto.
      - intros [[i [m [I [D N]]]] F]. split.
        + apply in_map_iff in I. destruct I as [j1 [<- J]]. apply in_map_iff in J. destruct J as [j2 [<- J]]. rewrite KM in D. eauto.
        + intros j m' J D' N'. apply (F (bridge_intf t ((if b then set_route else (fun x => x)) j)) m'); [apply in_map, in_map; auto|rewrite KM; auto|auto]. }
    assert (FI : Forall2 (access_if t rt) (vk_ifs l) (map (bridge_intf t) (map (if rt then set_route else (fun x => x)) (map (set_intf_mode t) (vk_ifs l))))).
    { clearbody rt. clear. induction (vk_ifs l) as [|i r IH]; cbn [map]; constructor; [apply access_if_spec|auto]. }
    assert (V2 : vk_vlan l2 = None \/ exists x, vk_vlan l2 = Some (VDict x)).
    { rewrite M4. destruct LV as [->|[x ->]]; destruct (GV v) as [->|[y ->]]; cbn [addv is_dict andb]; eauto. rewrite merge_dicts. eauto. }
    destruct rt eqn:RT.
    - assert (X : exists x, match vk_vlan l2 with
                | Some (VDict x) => Some (set_ifs (set_vlan l2 (Some (VDict (dset "mode" (VStr "route") x)))) (map set_route (vk_ifs l2)))
                | None => Some (set_ifs (set_vlan l2 (Some (VDict [("mode", VStr "route")]))) (map set_route (vk_ifs l2)))
                | Some _ => None
                end = Some (set_ifs (set_vlan l2 (Some (VDict x))) (map set_route (vk_ifs l2))) /\ dget "mode" x = Some (VStr "route") /\
                forall b, b <> "mode" -> dget b x = raw (vk_vlan l2) b).
      { destruct V2 as [V2|[x V2]]; rewrite V2; cbn [raw].
        - eexists. split; [reflexivity|]. cbn. split; [auto|]. intros b B. destruct (String.eqb_spec b "mode"); [contradiction|auto].
        - eexists. split; [reflexivity|]. split; [apply dget_dset_same|]. intros b B. apply dget_dset_other. auto. }
      destruct X as [x [-> [X1 X2]]]. unfold bind. eexists. split; [reflexivity|]. cbn [set_ifs set_vlan vk_name vk_index vk_ifs]. split; [auto|]. split; [auto|].
      exists v, true. split; [auto|]. split; [apply AR; cbn [set_ifs set_vlan vk_ifs]; rewrite M3; auto|]. split; [rewrite M3; exact FI|]. split; [|discriminate].
      intros _. split; [cbn [set_ifs set_vlan vk_data]; exact M5|]. exists x. cbn [set_ifs set_vlan vk_vlan]. split; [auto|]. split; [auto|]. intros b B. rewrite <- M4. auto.
    - assert (X : exists vd, set_prefix pick t va (vk_data l2) = Some (copy_vlan v vd (vk_data l2)) /\ vlan_source t l0 a v vd).
      { rewrite SP. unfold vlan_source. destruct (dget v (tv_vlans t)) as [g|] eqn:G; [exists g; split; [auto|left; auto]|].
        assert (CNE : co_nodes c <> []).
        { assert (NG : ~ In v (dkeys (tv_vlans t))) by (apply dget_None; auto). destruct VU as [o [I U]]. destruct I as [<-|I].
          - exfalso. pose proof (link_vlan_errors_exact _ _ _ _ _ _ CH) as [_ [AC _]]. pose proof (proj1 AC eq_refl _ (or_introl eq_refl)) as A.
            destruct U as [d [x [Q [X M]]]]. cbn [snd] in Q. assert (R : right_type a x).
            { destruct (conv a x) eqn:C; [apply conv_right; congruence|]. exfalso. apply (A (KType None a)). exists (VDict d). split; [auto|].
              econstructor; [cbn in AA |- *; intuition|exact X|]. intros R. apply conv_right in R. congruence. }
            apply (A (KUndef None a v)). exists (VDict d). split; [auto|]. econstructor; [cbn in AA |- *; intuition|exact X|exact R|exact M|].
            intros [D|[n [nd [D _]]]]; [auto|discriminate D].
          - apply in_map_iff in I. destruct I as [i [<- I]]. intros Q. assert (J : In (vf_node i) (co_nodes c)) by (apply CN; exists i, v; auto). rewrite Q in J. destruct J. }
        destruct (co_nodes c) as [|n ns] eqn:CO; [congruence|]. eexists. split; [reflexivity|]. right. split; [auto|].
        assert (PN : In (pick (n :: ns)) (n :: ns)) by (apply PK; discriminate). apply CN in PN. destruct PN as [i [w [I [E [U NW]]]]]. exists i, w.
        split; [auto|]. split; [auto|]. split; [auto|]. rewrite node_vlan_of, E. auto. }
      destruct X as [vd [-> VSR]]. unfold bind. eexists. split; [reflexivity|]. cbn [set_ifs set_data vk_name vk_index vk_ifs]. split; [auto|]. split; [auto|].
      destruct (copy_vlan_spec v vd (vk_data l2)) as [P1 [P2 [P3 P4]]].
      assert (ID : forall is : list vif, map (fun x => x) is = is) by (intros is; apply map_id).
      exists v, false. split; [auto|]. split; [apply AR; cbn [set_ifs set_data vk_ifs]; rewrite M3, ID; auto|]. rewrite ID in FI. split; [rewrite M3; exact FI|]. split; [discriminate|].
      intros _. exists vd. split; [auto|]. unfold vlan_link. cbn [set_ifs set_data vk_vlan vk_data]. split; [auto|]. rewrite P1, P2, P3, !M5 by discriminate.
      split; [auto|]. split; [auto|]. split; [auto|]. intros k K. cbn in K. rewrite P4 by (cbn; tauto). apply M5. intros ->. tauto. }
  destruct UA as [[UA1 [c [C1 [C2 [C3 [C4 C5]]]]]]|[UA1 [UA2 UA3]]].
  - destruct (MAIN "access" c) as [l' [L1 [L2 [L3 L4]]]]; auto.
    + cbn. auto.
    + left. auto.
    + congruence.
    + unfold access_vlan. rewrite <- C2. destruct (co_list c) as [|x r] eqn:Q; [congruence|auto].
    + intros d. unfold set_prefix. rewrite C1. rewrite <- C2 in C3. destruct (co_list c) as [|x r]; [congruence|]. auto.
    + exists l'. split; [auto|]. split; [auto|]. split; [auto|]. split; [intros N; contradiction|]. intros a [[_ ->]|[N _]]; [auto|contradiction].
  - destruct UN as [[UN1 [c [C1 [C2 [C3 [C4 C5]]]]]]|[UN1 [UN2 UN3]]].
    + destruct (MAIN "native" c) as [l' [L1 [L2 [L3 L4]]]]; auto.
      * cbn. auto.
      * right. auto.
      * congruence.
      * unfold access_vlan. rewrite UA3, <- C2. destruct (co_list c) as [|x r] eqn:Q; [congruence|auto].
      * intros d. unfold set_prefix. rewrite UA2, C1. rewrite <- C2 in C3. destruct (co_list c) as [|x r]; [congruence|]. auto.
      * exists l'. split; [auto|]. split; [auto|]. split; [auto|]. split; [intros _ N; contradiction|]. intros a [[N _]|[_ [_ ->]]]; [contradiction|auto].
    + clear MAIN. unfold access_vlan. rewrite UA3, UN3. unfold set_prefix. rewrite UA2, UN2.
      destruct (dget "trunk" va) as [c|] eqn:TR.
      * assert (UT' : used "trunk" l0) by (apply UT; unfold dmem; rewrite TR; auto).
        destruct (dmem "role" (vk_data l) || dmem "prefix" (vk_data l) || dmem "pool" (vk_data l)) eqn:B; unfold bind; eexists; (split; [reflexivity|]); cbn [set_data vk_name vk_index vk_ifs vk_vlan vk_data];
          (split; [auto|]); (split; [auto|]); (split; [|intros a [[N _]|[_ [N _]]]; contradiction]); intros _ _; (split; [auto|]); (split; [auto|]).
        -- split; [auto|]. split; [|auto]. intros _ E1 E2 E3. rewrite E1, E2, E3 in B. discriminate B.
        -- apply orb_false_iff in B. destruct B as [B B3]. apply orb_false_iff in B. destruct B as [B1 B2]. split; [intros k K; apply dget_dset_other; auto|]. split; [intros; apply dget_dset_same|].
           intros N. exfalso. apply N. auto.
      * assert (UT' : ~ used "trunk" l0) by (intros U; apply UT in U; unfold dmem in U; rewrite TR in U; discriminate U).
        unfold bind. eexists. split; [reflexivity|]. cbn [set_data vk_name vk_index vk_ifs vk_vlan vk_data].
        split; [auto|]. split; [auto|]. split; [|intros a [[N _]|[_ [N _]]]; contradiction]. intros _ _. split; [auto|]. split; [auto|]. split; [auto|]. split; [contradiction|auto].
Qed.

(* ---- VLANs without links ---- *)

(* the node is attached to a link with the VLAN; [links]: the name of the VLAN and the nodes of every link *)
Definition on_link (links : list (option string * list string)) (n v : string) : Prop := exists ns, In (Some v, ns) links /\ In n ns.

(* a VLAN of the node that needs a link of its own *)
Definition lonely (t : vtp) (links : list (option string * list string)) (n v : string) : Prop :=
  (exists nv, node_vlan t n v = Some nv) /\ ~ on_link links n v /\ fwd_mode t n v [] (VStr "irb").

(* the link: attributes of the global VLAN, the prefix of the global VLAN, one interface *)
Record loop_of (t : vtp) (n v : string) (idx : Z) (m : mlink) : Prop := {
  lo_index : dget "linkindex" (ml_data m) = orv (glob t v "linkindex") (Some (VInt idx));
  lo_parent : dget "parentindex" (ml_data m) = orv (glob t v "parentindex") (Some (VStr "loopback"));
  lo_vlan : dget "vlan_name" (ml_data m) = orv (glob t v "vlan_name") (Some (VStr v));
  lo_type : dget "type" (ml_data m) = orv (glob t v "type") (Some (VStr "vlan_member"));
  lo_name : dget "_linkname" (ml_data m) = orv (glob t v "_linkname") (Some (VStr ("nodes." ++ n ++ ".vlans." ++ v)));
  lo_access : glob t v "vlan" = None -> dget "vlan" (ml_data m) = Some (VDict [("access", VStr v)]);
  lo_prefix : is_set (attr_in (dget v (tv_vlans t)) "prefix") -> dget "prefix" (ml_data m) = attr_in (dget v (tv_vlans t)) "prefix";
  lo_noprefix : ~ is_set (attr_in (dget v (tv_vlans t)) "prefix") -> dget "prefix" (ml_data m) = glob t v "prefix";
  lo_rest : forall k, ~ In k ["linkindex"; "parentindex"; "vlan_name"; "type"; "_linkname"; "vlan"; "prefix"] -> dget k (ml_data m) = glob t v k;
  lo_ifs : ml_ifs m = [[("node", VStr n); ("_selfloop_ifindex", VInt 0); ("vlan", VDict [("access", VStr v)]); ("_vlan_mode", VStr "irb")]]
}.

Lemma attached_iff : forall links n v, attached links n v = true <-> on_link links n v.
Proof.
  intros links n v. unfold attached, on_link. rewrite existsb_exists. split.
  - intros [[o ns] [I H]]. cbn [fst snd] in H. destruct o as [x|]; [|discriminate H]. apply andb_true_iff in H. destruct H as [H1 H2]. apply String.eqb_eq in H1. subst x.
    apply memS_true in H2. eauto.
  - intros [ns [I N]]. exists (Some v, ns). split; [auto|]. cbn [fst snd]. rewrite String.eqb_refl. apply memS_true in N. rewrite N. auto.
Qed.

Lemma fwd_mode_fun : forall t n v own m1 m2, fwd_mode t n v own m1 -> fwd_mode t n v own m2 -> m1 = m2.
Proof.
  intros t n v own m1 m2. unfold fwd_mode. generalize (own ++ [attr_in (node_vlan t n v) "mode"; match dget n (tv_nodes t) with Some nd => nd_mode nd | None => None end;
    attr_in (dget v (tv_vlans t)) "mode"; tv_mode t]). intros l [[p [P [T F]]]|[F E]] [[p' [P' [T' F']]]|[F' E']].
  - destruct (lt_eq_lt_dec p p') as [[L|L]|L].
    + exfalso. apply (F' p (Some m1) L P). exists m1. auto.
    + subst p'. congruence.
    + exfalso. apply (F p' (Some m2) L P'). exists m2. auto.
  - exfalso. apply (F' (Some m1)); [eapply nth_error_In; eauto|exists m1; auto].
  - exfalso. apply (F (Some m2)); [eapply nth_error_In; eauto|exists m2; auto].
  - congruence.
Qed.

Lemma loop_member : forall t n v, v <> "" -> exists i m, member_intf t [] v n None 0 = Some i /\ dget "_vlan_mode" i = Some m /\ fwd_mode t n v [] m /\
  (m = VStr "irb" -> i = [("node", VStr n); ("_selfloop_ifindex", VInt 0); ("vlan", VDict [("access", VStr v)]); ("_vlan_mode", VStr "irb")]).
Proof.
  intros t n v V. set (m := compute_mode t n (Some v) None None).
  assert (FM : fwd_mode t n v [] m).
  { pose proof (compute_mode_set t n v None None V) as C. fold m in C. unfold fwd_mode in *. cbn [app] in *.
    assert (N : ~ is_set None) by (intros [x [Q _]]; discriminate Q).
    destruct C as [[p [P [T F]]]|[F E]].
    - destruct p as [|[|p]]; cbn in P; try discriminate P. left. exists p. split; [exact P|]. split; [auto|]. intros q x Q X. apply (F (S (S q))); [lia|exact X].
    - right. split; [|auto]. intros x X. apply F. right. now right. }
  assert (E : member_intf t [] v n None 0 =
    Some (let d3 := dset "_vlan_mode" m [("node", VStr n); ("_selfloop_ifindex", VInt 0); ("vlan", VDict [("access", VStr v)])] in
          if is_str "bridge" m then dset "ipv6" (VBool false) (dset "ipv4" (VBool false) d3) else d3)) by reflexivity.
  rewrite E. clear E. clearbody m. cbv zeta. eexists. exists m. split; [reflexivity|]. split; [destruct (is_str "bridge" m); reflexivity|]. split; [auto|]. intros ->. reflexivity.
Qed.

Lemma loop_link_spec : forall t n v idx, v <> "" -> (forall g, dget v (tv_vlans t) = Some g -> NoDup (dkeys g)) ->
  exists o, loop_link t n v idx = Some o /\ (o = None <-> ~ fwd_mode t n v [] (VStr "irb")) /\ forall m, o = Some m -> loop_of t n v idx m.
Proof.
  intros t n v idx V ND. unfold loop_link.
  set (d0 := [("_linkname", VStr ("nodes." ++ n ++ ".vlans." ++ v)); ("linkindex", VInt idx); ("parentindex", VStr "loopback"); ("vlan", VDict [("access", VStr v)]);
     ("vlan_name", VStr v); ("type", VStr "vlan_member")]).
  assert (E : link_data t [("_linkname", VStr ("nodes." ++ n ++ ".vlans." ++ v))] v (VStr "loopback") idx = Some (add_global t v d0)) by reflexivity.
  rewrite E. clear E. unfold bind at 1. cbv zeta. destruct (loop_member t n v V) as [i [m [-> [M1 [M2 M3]]]]]. unfold bind. rewrite M1.
  eexists. split; [reflexivity|]. destruct (is_str "irb" m) eqn:S.
  - apply is_str_iff in S. subst m. split; [split; [discriminate|intros N; contradiction]|]. intros x Q. injection Q as <-.
    assert (G : forall k, dget k (add_global t v d0) = orv (glob t v k) (dget k d0)) by (intros k; apply add_global_spec; auto).
    set (d' := match opt_prefix t v with Some p => if truthy p then dset "prefix" p (add_global t v d0) else add_global t v d0 | None => add_global t v d0 end).
    assert (G' : forall k, k <> "prefix" -> dget k d' = orv (glob t v k) (dget k d0)).
    { intros k K. rewrite <- G. unfold d'. destruct (opt_prefix t v) as [p|]; [|auto]. destruct (truthy p); [apply dget_dset_other; auto|auto]. }
    assert (OP : opt_prefix t v = attr_in (dget v (tv_vlans t)) "prefix") by (unfold opt_prefix, attr_in; auto).
    constructor; cbn [ml_data ml_ifs]; try (rewrite G' by discriminate; reflexivity).
    + intros GV. rewrite G' by discriminate. rewrite GV. reflexivity.
    + rewrite <- OP. intros [p [P T]]. unfold d'. rewrite P, T. apply dget_dset_same.
    + rewrite <- OP. intros N. assert (D : d' = add_global t v d0).
      { unfold d'. destruct (opt_prefix t v) as [p|]; [|auto]. destruct (truthy p) eqn:T; [|auto]. exfalso. apply N. exists p. auto. }
      rewrite D, G. destruct (glob t v "prefix"); auto.
    + intros k K. cbn in K. rewrite G' by (intros ->; tauto). assert (D : dget k d0 = None).
      { apply dget_None. intros I. cbn in I. tauto. }
      rewrite D. destruct (glob t v k); auto.
    + rewrite M3; auto.
  - split; [|discriminate]. split; [|auto]. intros _ F. pose proof (fwd_mode_fun _ _ _ _ _ _ M2 F) as Q. apply is_str_iff in Q. congruence.
Qed.

(* the pairs of nodes and VLANs with links, in order *)
Inductive loops (t : vtp) : Z -> list (string * string) -> list mlink -> Prop :=
| lp_nil : forall i, loops t i [] []
| lp_add : forall i n v m ps ms, loop_of t n v i m -> loops t (i + 1) ps ms -> loops t i ((n, v) :: ps) (m :: ms).

Lemma loops_app : forall t i ps ms ps' ms', loops t i ps ms -> loops t (i + Z.of_nat (length ps)) ps' ms' -> loops t i (ps ++ ps') (ms ++ ms').
Proof.
  intros t i ps ms ps' ms' H. revert ps' ms'. induction H as [i|i n v m ps ms L H IH]; intros ps' ms' H'; cbn [app length] in *.
  - rewrite Z.add_0_r in H'. auto.
  - constructor; [auto|]. apply IH. replace (i + 1 + Z.of_nat (length ps))%Z with (i + Z.of_nat (S (length ps)))%Z by lia. auto.
Qed.

Lemma loop_vlans_spec : forall t links n, (forall v g, dget v (tv_vlans t) = Some g -> NoDup (dkeys g)) ->
  forall vs idx, (forall v, In v vs -> v <> "") -> NoDup vs ->
  exists ps ms, loop_vlans t links n vs idx = Some (ms, (idx + Z.of_nat (length ps))%Z) /\ loops t idx ps ms /\ NoDup ps /\
    forall x v, In (x, v) ps <-> x = n /\ In v vs /\ ~ on_link links n v /\ fwd_mode t n v [] (VStr "irb").
Proof.
  intros t links n ND. induction vs as [|v vs IH]; intros idx NE NV; cbn [loop_vlans].
  - exists [], []. cbn [length]. rewrite Z.add_0_r. split; [auto|]. split; [constructor|]. split; [constructor|]. cbn. intuition.
  - inversion NV as [|? ? N1 N2]; subst. assert (NE' : forall w, In w vs -> w <> "") by (intros w W; apply NE; now right).
    destruct (attached links n v) eqn:A.
    + apply attached_iff in A. destruct (IH idx NE' N2) as [ps [ms [H1 [H2 [H3 H4]]]]]. exists ps, ms. split; [auto|]. split; [auto|]. split; [auto|].
      intros x w. rewrite H4. cbn [In]. split; [tauto|]. intros [Q [[<-|W] R]]; [tauto|auto].
    + assert (NA : ~ on_link links n v) by (intros Q; apply attached_iff in Q; congruence).
      destruct (loop_link_spec t n v idx (NE v (or_introl eq_refl)) (ND v)) as [o [-> [O1 O2]]]. unfold bind. destruct o as [m|].
      * destruct (IH (idx + 1)%Z NE' N2) as [ps [ms [-> [H2 [H3 H4]]]]]. exists ((n, v) :: ps), (m :: ms). cbn [fst snd length].
        split; [f_equal; f_equal; lia|]. split; [constructor; auto|]. split.
        -- constructor; [|auto]. intros I. apply H4 in I. tauto.
        -- intros x w. cbn [In]. rewrite H4. assert (FM : fwd_mode t n v [] (VStr "irb")).
           { destruct (loop_member t n v (NE v (or_introl eq_refl))) as [i [mm [_ [_ [F _]]]]]. destruct (is_str "irb" mm) eqn:S; [apply is_str_iff in S; subst; auto|].
             exfalso. assert (Q : Some m = None); [|discriminate Q]. apply O1. intros F'. pose proof (fwd_mode_fun _ _ _ _ _ _ F F') as E. apply is_str_iff in E. congruence. }
           split.
           ++ intros [Q|[Q1 [Q2 Q3]]]; [injection Q as <- <-; auto|auto].
           ++ intros [-> [[<-|W] R]]; [left; auto|right; auto].
      * destruct (IH idx NE' N2) as [ps [ms [H1 [H2 [H3 H4]]]]]. exists ps, ms. split; [auto|]. split; [auto|]. split; [auto|].
        intros x w. rewrite H4. cbn [In]. split; [tauto|]. intros [Q [[<-|W] R]]; [|auto]. exfalso. apply (proj1 O1 eq_refl). tauto.
Qed.

(* A link is created exactly for the VLANs of a node that are in IRB mode and not on a link the node is attached to. *)
Theorem loopback_links_exact : forall t links idx, (forall v g, dget v (tv_vlans t) = Some g -> NoDup (dkeys g)) ->
  NoDup (dkeys (tv_nodes t)) -> (forall n nd, dget n (tv_nodes t) = Some nd -> NoDup (dkeys (nd_vlans nd)) /\ ~ In "" (dkeys (nd_vlans nd))) ->
  exists ps ms, create_loopback_links t links idx = Some ms /\ loops t idx ps ms /\ NoDup ps /\ forall n v, In (n, v) ps <-> lonely t links n v.
Proof.
  intros t links idx ND NN NV. unfold create_loopback_links.
  assert (A : forall ns idx, NoDup (dkeys ns) -> (forall n nd, In (n, nd) ns -> dget n (tv_nodes t) = Some nd) ->
    exists ps ms, loop_nodes t links ns idx = Some ms /\ loops t idx ps ms /\ NoDup ps /\ forall n v, In (n, v) ps <-> In n (dkeys ns) /\ lonely t links n v).
  { induction ns as [|[n nd] ns IH]; intros i NDN SUB; cbn [loop_nodes].
    - exists [], []. split; [auto|]. split; [constructor|]. split; [constructor|]. cbn. tauto.
    - change (dkeys ((n, nd) :: ns)) with (n :: dkeys ns) in *. inversion NDN as [|? ? N1 N2]; subst. pose proof (SUB n nd (or_introl eq_refl)) as G.
      destruct (NV _ _ G) as [V1 V2]. destruct (loop_vlans_spec t links n ND (dkeys (nd_vlans nd)) i) as [ps [ms [-> [H2 [H3 H4]]]]]; [intros v I ->; auto|auto|].
      unfold bind. cbn [fst snd]. destruct (IH (i + Z.of_nat (length ps))%Z N2) as [ps' [ms' [-> [K2 [K3 K4]]]]]; [intros a b I; apply SUB; now right|].
      exists (ps ++ ps'), (ms ++ ms'). split; [auto|]. split; [apply loops_app; auto|]. split.
      + assert (DJ : forall x, In x ps -> ~ In x ps'). { intros [a b] I J. apply H4 in I. apply K4 in J. destruct I as [-> _]. tauto. }
        clear - H3 K3 DJ. induction ps as [|x ps IH]; cbn [app]; [auto|]. inversion H3; subst. constructor.
        * intros I. apply in_app_iff in I. destruct I as [I|I]; [auto|]. apply (DJ x); [now left|auto].
        * apply IH; [auto|]. intros y Y. apply DJ. now right.
      + intros a b. rewrite in_app_iff, H4, K4. cbn [In]. assert (LN : lonely t links n b <-> In b (dkeys (nd_vlans nd)) /\ ~ on_link links n b /\ fwd_mode t n b [] (VStr "irb")).
        { unfold lonely, node_vlan. rewrite G. rewrite <- dmem_true. unfold dmem. destruct (dget b (nd_vlans nd)) as [z|]; [|split; [intros [[z Q] _]; discriminate Q|intros [Q _]; discriminate Q]].
          split; [tauto|]. intros [_ Q]. split; [eauto|auto]. }
        split; [intros [[-> Q]|[Q1 Q2]]|intros [[<-|Q1] Q2]]; try tauto. }
  destruct (A (tv_nodes t) idx NN) as [ps [ms [H1 [H2 [H3 H4]]]]]; [intros n nd I; apply dget_NoDup; auto|]. exists ps, ms. split; [auto|]. split; [auto|]. split; [auto|].
  intros n v. rewrite H4. split; [tauto|]. intros L. split; [|auto]. destruct L as [[nv Q] _]. unfold node_vlan in Q.
  apply dmem_true. unfold dmem. destruct (dget n (tv_nodes t)); [auto|discriminate Q].
Qed.

(* ---- examples ---- *)

Definition va_topo : vtp :=
  mk_vtp (tv_vlans vm_topo) None
    [("s1", vx_sw [("green", [("prefix", VDict [("ipv4", VStr "10.1.0.0/24")])])]); ("s2", vx_sw [("pink", [("prefix", VDict [("ipv4", VStr "10.2.0.0/24")]); ("mode", VStr "bridge")]); ("red", [])])] (tv_skip vm_topo).

(* an access link in a global VLAN *)
Example va_access : option_map (fun r => (vk_data (fst (fst r)), map vf_data (vk_ifs (fst (fst r))), snd r))
    (link_pre_transform (fun l => hd "" l) va_topo (mk_vlk "links[4]" 4 (Some (VDict [("access", VStr "blue")])) [] [mk_vif "s1" None []; mk_vif "s2" None []]) 7) =
  Some ([("prefix", VDict [("ipv4", VStr "172.16.1.0/24")]); ("type", VStr "lan"); ("vlan_name", VStr "blue")],
        [[("_vlan_mode", VStr "bridge"); ("ipv4", VBool false); ("ipv6", VBool false)]; [("_vlan_mode", VStr "bridge"); ("ipv4", VBool false); ("ipv6", VBool false)]], []).
Proof. vm_compute. reflexivity. Qed.

(* a routed access link *)
Example va_routed : option_map (fun r => (vk_data (fst (fst r)), map vf_data (vk_ifs (fst (fst r))), snd r))
    (link_pre_transform (fun l => hd "" l) va_topo (mk_vlk "links[4]" 4 (Some (VDict [("access", VStr "gray")])) [] [mk_vif "s1" None []; mk_vif "s2" None []]) 7) =
  Some ([], [[("_vlan_mode", VStr "route")]; [("_vlan_mode", VStr "route")]], []).
Proof. vm_compute. reflexivity. Qed.

(* Two nodes with different local VLANs on a link: the prefix of the link depends on the order of elements in a set. *)
Definition va_link : vlk := mk_vlk "links[5]" 5 None [] [mk_vif "s1" (Some (VDict [("access", VStr "green")])) []; mk_vif "s2" (Some (VDict [("access", VStr "pink")])) []].
Theorem access_vlan_refuted : exists p1 p2 : list string -> string, (forall x, x <> [] -> In (p1 x) x) /\ (forall x, x <> [] -> In (p2 x) x) /\
  option_map (fun r => (dget "prefix" (vk_data (fst (fst r))), snd r)) (link_pre_transform p1 va_topo va_link 7) = Some (Some (VDict [("ipv4", VStr "10.1.0.0/24")]), []) /\
  option_map (fun r => (dget "prefix" (vk_data (fst (fst r))), snd r)) (link_pre_transform p2 va_topo va_link 7) = Some (Some (VDict [("ipv4", VStr "10.2.0.0/24")]), []).
Proof.
  exists (hd ""), (fun l => last l ""). split; [intros [|a r] H; [congruence|now left]|]. split.
  - intros x H. destruct (exists_last H) as [y [a ->]]. rewrite last_last. apply in_app_iff. right. now left.
  - vm_compute. auto.
Qed.

(* VLANs without links *)
Example va_loop : option_map (map vm_sum) (create_loopback_links va_topo [(None, ["s1"; "s2"]); (Some "blue", ["s1"; "s2"])] 7) =
  Some [[Some (VInt 7); Some (VStr "green"); Some (VStr "vlan_member"); None; Some (VStr "irb")];
        [Some (VInt 8); Some (VStr "red"); Some (VStr "p2p"); Some (VDict [("ipv4", VStr "172.16.0.0/24")]); Some (VStr "irb")]].
Proof. vm_compute. reflexivity. Qed.

(* The prefix of a VLAN defined only on a node is not used on its link. *)
Theorem loopback_prefix_refuted : exists m, create_loopback_links va_topo [(Some "red", ["s2"])] 7 = Some [m] /\
  dget "vlan_name" (ml_data m) = Some (VStr "green") /\ dget "prefix" (ml_data m) = None /\
  attr_in (node_vlan va_topo "s1" "green") "prefix" = Some (VDict [("ipv4", VStr "10.1.0.0/24")]).
Proof. eexists. vm_compute. repeat split; reflexivity. Qed.

Print Assumptions access_link_exact.
Print Assumptions access_vlan_refuted.
Print Assumptions loopback_links_exact.
Print Assumptions loopback_prefix_refuted.
