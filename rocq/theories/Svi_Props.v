(* VLAN interfaces of a node: one for every bridged VLAN, its data, its index, bridge groups, and what remains of the
   ports (properties C106-C109). *)
From Coq Require Import String ZArith Lia Bool List.
From Verif Require Import Base Box_Model Box_Props Svi_Model.
Import ListNotations.
Open Scope Z_scope.

(* the VLAN of a port: the access VLAN, or the native VLAN of a port without one *)
Definition uses (i : vintf) (v : string) : Prop :=
  v <> ""%string /\ (p_access (i_vlan i) = Some v \/ p_access (i_vlan i) = None /\ p_native (i_vlan i) = Some v).
Definition routed_on (i : vintf) (v : string) : Prop := uses i v /\ i_fwd i = Some "route"%string.
Definition bridged_on (i : vintf) (v : string) : Prop := uses i v /\ exists m, i_fwd i = Some m /\ m <> "route"%string.

Lemma port_vlan_uses : forall i v, port_vlan i = Some v <-> uses i v.
Proof.
  intros i v. unfold port_vlan, uses. destruct (p_access (i_vlan i)) as [a|].
  - destruct (String.eqb_spec a "") as [->|N]; split; intros H.
    + discriminate.
    + destruct H as [H [E|[E _]]]; [injection E as E; congruence|discriminate].
    + injection H as <-. auto.
    + destruct H as [H [E|[E _]]]; [congruence|discriminate].
  - destruct (p_native (i_vlan i)) as [a|].
    + destruct (String.eqb_spec a "") as [->|N]; split; intros H.
      * discriminate.
      * destruct H as [H [E|[_ E]]]; [discriminate|injection E as E; congruence].
      * injection H as <-. auto.
      * destruct H as [H [E|[_ E]]]; [discriminate|congruence].
    + split; [discriminate|]. intros [_ [E|[_ E]]]; discriminate.
Qed.
Lemma uses_fun : forall i v w, uses i v -> uses i w -> v = w.
Proof. intros i v w A B. apply port_vlan_uses in A. apply port_vlan_uses in B. congruence. Qed.

Section Svi.
Variable svi_fmt : Z -> option Z -> string -> string.
Variable svi_desc : string -> Z -> string.
Variable t : vtop.
Variable nd : vnode.
Notation create_svi := (create_svi svi_fmt svi_desc t nd).
Notation create_node_vlan := (create_node_vlan t nd).
Notation make_svi := (make_svi svi_fmt svi_desc t nd).
Notation update_list := (update_list t nd).

Inductive cstep : vintf -> list vintf -> cstate -> cstate -> Prop :=
| CS_none : forall i r st, port_vlan i = None ->
    cstep i r st (mk_cs (c_vlans st) (c_bg st) (c_done st ++ [i]) (c_svi st) (c_nl st) (c_errs st))
| CS_route : forall i r st v x vlans bg, routed_on i v -> create_node_vlan (c_vlans st) (c_bg st) v = Some (x, vlans, bg) ->
    cstep i r st (mk_cs vlans bg (c_done st ++ [routed_port t v x i]) (c_svi st) (c_nl st) (c_errs st))
| CS_old : forall i r st v x vlans bg s, bridged_on i v -> create_node_vlan (c_vlans st) (c_bg st) v = Some (x, vlans, bg) ->
    dget v (c_svi st) = Some s ->
    cstep i r st (mk_cs vlans bg (c_done st ++ [bridged_port t x i]) (c_svi st) (update_list v (i_ngb i) s (c_nl st)) (c_errs st))
| CS_new : forall i r st v x vlans bg s e, bridged_on i v -> create_node_vlan (c_vlans st) (c_bg st) v = Some (x, vlans, bg) ->
    dget v (c_svi st) = None -> make_svi v x i (c_done st ++ (i :: r) ++ map snd (c_svi st)) = (s, e) ->
    cstep i r st (mk_cs vlans bg (c_done st ++ [bridged_port t x i]) (c_svi st ++ [(v, s)]) (update_list v (i_ngb i) s (c_nl st))
                        (c_errs st ++ if e then [EIndex] else [])).

Inductive csteps : list vintf -> cstate -> cstate -> Prop :=
| CSS_nil : forall st, csteps [] st st
| CSS_cons : forall i r st st1 st2, cstep i r st st1 -> csteps r st1 st2 -> csteps (i :: r) st st2.

Lemma create_svi_steps : forall l st c, vn_svi nd = true -> create_svi l st = Some c -> csteps l st c.
Proof.
  induction l as [|i r IH]; intros st c N H; cbn [Svi_Model.create_svi] in H.
  - injection H as <-. constructor.
  - destruct (port_vlan i) as [v|] eqn:P.
    2:{ eapply CSS_cons; [now apply CS_none|now apply IH]. }
    apply port_vlan_uses in P.
    destruct (i_fwd i) as [m|] eqn:F; [|discriminate].
    destruct (create_node_vlan (c_vlans st) (c_bg st) v) as [[[x vlans] bg]|] eqn:C; [|discriminate].
    destruct (String.eqb_spec m "route") as [->|M].
    + eapply CSS_cons; [eapply CS_route; [split; eauto|exact C]|now apply IH].
    + rewrite N in H. cbn [negb] in H. assert (B : bridged_on i v) by (split; eauto).
      destruct (dget v (c_svi st)) as [s|] eqn:G.
      * eapply CSS_cons; [eapply CS_old; eauto|now apply IH].
      * destruct (make_svi v x i (c_done st ++ (i :: r) ++ map snd (c_svi st))) as [s e] eqn:K.
        eapply CSS_cons; [eapply CS_new; eauto|now apply IH].
Qed.

(* ---- node VLANs ---- *)

(* the VLAN data before a bridge group is assigned: node data or the data of the global VLAN *)
Lemma create_node_vlan_inv : forall vlans bg v x vlans' bg',
  create_node_vlan vlans bg v = Some (x, vlans', bg') ->
  vlans' = dset v x vlans /\ nv_bg x <> None /\
  exists x0, (dget v vlans = Some x0 \/ dget v vlans = None /\ exists g, dget v (vt_vlans t) = Some g /\ x0 = populated t nd g) /\
    ((nv_bg x0 <> None /\ x = x0 /\ bg' = bg) \/
     (nv_bg x0 = None /\ exists b, b = match bg with Some b => if b =? 0 then 1 else b + 1 | None => 1 end /\
        x = mk_nv (nv_id x0) (nv_mode x0) (nv_type x0) (Some b) (nv_attr x0) /\ bg' = Some b)).
Proof.
  intros vlans bg v x vlans' bg' H. unfold Svi_Model.create_node_vlan in H.
  assert (G : exists x0, (match dget v vlans with Some x => Some x | None => option_map (populated t nd) (dget v (vt_vlans t)) end) = Some x0 /\
    (dget v vlans = Some x0 \/ dget v vlans = None /\ exists g, dget v (vt_vlans t) = Some g /\ x0 = populated t nd g)).
  { destruct (dget v vlans) as [y|].
    - exists y. auto.
    - destruct (dget v (vt_vlans t)) as [g|]; [|discriminate]. exists (populated t nd g). split; [reflexivity|]. right. split; [auto|]. exists g. auto. }
  destruct G as [x0 [E O]]. rewrite E in H. destruct (nv_bg x0) as [b|] eqn:B.
  - injection H as <- <- <-. split; [auto|]. split; [congruence|]. exists x0. split; [exact O|]. left. split; [congruence|auto].
  - injection H as <- <- <-. split; [auto|]. split; [discriminate|]. exists x0. split; [exact O|]. right. split; [auto|].
    eexists. split; [reflexivity|]. split; reflexivity.
Qed.

(* VLAN data with a bridge group do not change *)
Lemma vlan_stable_step : forall i r st st' v x, cstep i r st st' ->
  dget v (c_vlans st) = Some x -> nv_bg x <> None -> dget v (c_vlans st') = Some x.
Proof.
  intros i r st st' v x S G B.
  assert (K : forall w y vlans bg, create_node_vlan (c_vlans st) (c_bg st) w = Some (y, vlans, bg) -> dget v vlans = Some x).
  { intros w y vlans bg C. apply create_node_vlan_inv in C. destruct C as [-> [_ [x0 [O D]]]].
    destruct (String.eqb_spec v w) as [->|N]; [|now rewrite dget_dset_other].
    rewrite dget_dset_same. destruct O as [O|[O _]]; [|congruence]. rewrite G in O. injection O as <-.
    destruct D as [[_ [-> _]]|[D _]]; [auto|contradiction]. }
  inversion S; subst; cbn [c_vlans]; eauto.
Qed.
Lemma vlan_stable : forall l st st' v x, csteps l st st' ->
  dget v (c_vlans st) = Some x -> nv_bg x <> None -> dget v (c_vlans st') = Some x.
Proof.
  intros l st st' v x S. induction S as [|i r st st1 st2 A S IH]; intros G B; [auto|].
  apply IH; [eapply vlan_stable_step; eauto|auto].
Qed.
Lemma created : forall vlans bg v x vlans' bg', create_node_vlan vlans bg v = Some (x, vlans', bg') ->
  dget v vlans' = Some x /\ nv_bg x <> None.
Proof. intros. apply create_node_vlan_inv in H. destruct H as [-> [B _]]. split; [apply dget_dset_same|auto]. Qed.

(* ---- one VLAN interface for every bridged VLAN ---- *)

Definition start (vlans : dict nvlan) (bg : option Z) (nl : nlists) : cstate := mk_cs vlans bg [] [] nl [].

Lemma keys_app : forall A (d : dict A) e, dkeys (d ++ e) = dkeys d ++ dkeys e.
Proof. intros. unfold dkeys. apply map_app. Qed.

Lemma svi_grow : forall l st st', csteps l st st' -> exists d, c_svi st' = c_svi st ++ d /\
  (forall v, In v (dkeys d) <-> ~ In v (dkeys (c_svi st)) /\ exists i, In i l /\ bridged_on i v) /\
  (NoDup (dkeys (c_svi st)) -> NoDup (dkeys (c_svi st'))).
Proof.
  intros l st st' S. induction S as [|i r st st1 st2 A S IH].
  { exists []. rewrite app_nil_r. split; [auto|]. split; [|auto]. intros v. split; [intros []|intros [_ [i [[] _]]]]. }
  destruct IH as [d [E [K N]]].
  inversion A; subst; cbn [c_svi] in *.
  - exists d. split; [exact E|]. split; [|exact N]. intros w. rewrite (K w). split; intros [Nw [j [J B]]]; split; auto.
    + exists j. split; [now right|auto].
    + destruct J as [<-|J]; [|eauto]. destruct B as [U _]. apply port_vlan_uses in U. congruence.
  - exists d. split; [exact E|]. split; [|exact N]. intros w. rewrite (K w). split; intros [Nw [j [J B]]]; split; auto.
    + exists j. split; [now right|auto].
    + destruct J as [<-|J]; [|eauto]. destruct B as [_ [m [M1 M2]]]. destruct H as [_ H]. congruence.
  - exists d. split; [exact E|]. split; [|exact N]. intros w. rewrite (K w). split; intros [Nw [j [J B]]]; split; auto.
    + exists j. split; [now right|auto].
    + destruct J as [<-|J]; [|eauto]. elim Nw. destruct B as [U _]. destruct H as [U' _].
      rewrite (uses_fun _ _ _ U U'). eapply dget_Some_key; eauto.
  - exists ((v, s) :: d). rewrite <- app_assoc in E. split; [exact E|].
    assert (F : ~ In v (dkeys (c_svi st))) by (now apply dget_None). split.
    + intros w. cbn [dkeys map fst In]. rewrite keys_app in K. specialize (K w). cbn [dkeys map fst] in K. split.
      * intros [<-|W]; [split; [auto|exists i; split; [now left|auto]]|]. apply K in W. destruct W as [W [j [J B]]]. split.
        -- intros X. apply W. apply in_app_iff. now left.
        -- exists j. split; [now right|auto].
      * intros [Nw [j [J B]]]. destruct (String.eqb_spec v w) as [->|D]; [now left|]. right. apply K. split.
        -- rewrite in_app_iff. cbn [In]. tauto.
        -- destruct J as [<-|J]; [|eauto]. destruct B as [U _]. destruct H as [U' _]. elim D. now apply (uses_fun i).
    + intros Nd. apply N. rewrite keys_app. apply NoDup_app_intro; auto.
      * constructor; [intros []|constructor].
      * intros w X [<-|[]]. auto.
Qed.

(* C106: a node gets exactly one VLAN interface for every VLAN with a bridged port *)
Theorem one_svi_per_vlan : forall l vlans bg nl c, vn_svi nd = true -> create_svi l (start vlans bg nl) = Some c ->
  NoDup (dkeys (c_svi c)) /\ forall v, In v (dkeys (c_svi c)) <-> exists i, In i l /\ bridged_on i v.
Proof.
  intros l vlans bg nl c N H. apply create_svi_steps in H; [|auto]. apply svi_grow in H. destruct H as [d [E [K D]]].
  cbn [start c_svi app] in *. subst d. split; [apply D; constructor|]. intros v. rewrite K. split; [tauto|]. intros X. split; [intros []|auto].
Qed.

(* ---- the data of a VLAN interface ---- *)

Definition mode_of (i : vintf) (x : nvlan) : string :=
  match p_mode (i_vlan i) with
  | Some m => if String.eqb m "" then text (nv_mode x) else m
  | None => text (nv_mode x)
  end.

(* the VLAN interface made from the port [i] and from VLAN data *)
Definition svi_from (v : string) (x : nvlan) (i s : vintf) : Prop :=
  i_type s = match nv_type x with Some y => y | None => "svi"%string end /\
  i_ifname s = svi_fmt (nv_id x) (nv_bg x) (i_ifname i) /\
  p_name (i_vlan s) = Some v /\ p_mode (i_vlan s) = nv_mode x /\
  p_access (i_vlan s) = None /\ p_native (i_vlan s) = None /\ p_trunk (i_vlan s) = [] /\ i_vname s = i_vname i /\
  i_attr s = svi_attrs svi_desc t nd v x i.

Lemma make_svi_from : forall v x i all s e, make_svi v x i all = (s, e) -> svi_from v x i s.
Proof.
  intros v x i all s e H. unfold Svi_Model.make_svi in H. destruct (svi_index all) as [idx e0]. injection H as <- _.
  unfold svi_from. cbn [i_type i_ifname i_vlan p_name p_mode p_access p_native p_trunk i_vname i_attr]. repeat split; reflexivity.
Qed.

Lemma svi_origin : forall l st st', csteps l st st' -> forall v s, dget v (c_svi st') = Some s -> dget v (c_svi st) = None ->
  exists l1 i l2 x, l = l1 ++ i :: l2 /\ bridged_on i v /\ (forall j, In j l1 -> ~ bridged_on j v) /\
    dget v (c_vlans st') = Some x /\ svi_from v x i s.
Proof.
  intros l st st' S. induction S as [|i r st st1 st2 A S IH]; intros v s G F; [congruence|].
  assert (P : dget v (c_svi st1) = None -> ~ bridged_on i v -> exists l1 j l2 x, i :: r = l1 ++ j :: l2 /\ bridged_on j v /\
    (forall k, In k l1 -> ~ bridged_on k v) /\ dget v (c_vlans st2) = Some x /\ svi_from v x j s).
  { intros F1 B. destruct (IH v s G F1) as [l1 [j [l2 [x [E [J [L [X Y]]]]]]]]. exists (i :: l1), j, l2, x.
    split; [now rewrite E|]. split; [auto|]. split; [|auto]. intros k [<-|K]; auto. }
  inversion A; subst; cbn [c_svi] in *.
  - apply P; [auto|]. intros [U _]. apply port_vlan_uses in U. congruence.
  - apply P; [auto|]. intros [_ [m [M1 M2]]]. destruct H as [_ H]. congruence.
  - apply P; [auto|]. intros [U _]. destruct H as [U' _]. rewrite (uses_fun _ _ _ U U') in F. congruence.
  - destruct (String.eqb_spec v v0) as [->|D].
    + exists [], i, r, x. split; [auto|]. split; [auto|]. split; [intros j []|]. destruct (created _ _ _ _ _ _ H0) as [C1 C2].
      split; [eapply vlan_stable; [exact S|exact C1|exact C2]|].
      assert (s = s0); [|subst; eapply make_svi_from; eauto].
      destruct (svi_grow _ _ _ S) as [d [E _]]. cbn [c_svi] in E. rewrite E in G.
      assert (Q : forall (d1 d2 : dict vintf), dget v0 d1 = None -> dget v0 ((d1 ++ [(v0, s0)]) ++ d2) = Some s0).
      { intros d1 d2. induction d1 as [|[k y] q Q]; cbn [app dget]; [now rewrite String.eqb_refl|].
        destruct (String.eqb v0 k); [discriminate|auto]. }
      rewrite Q in G; [congruence|auto].
    + apply P.
      * assert (Q : forall (d1 : dict vintf), dget v d1 = None -> dget v (d1 ++ [(v0, s0)]) = None).
        { intros d1. induction d1 as [|[k y] q Q]; cbn [app dget].
          - apply String.eqb_neq in D. now rewrite D.
          - destruct (String.eqb v k); [discriminate|auto]. }
        now apply Q.
      * intros [U _]. destruct H as [U' _]. apply D. now apply (uses_fun i).
Qed.

Lemma mdict_keys : forall a b, keys_val (merge (VDict a) (VDict b)) = mdict a b.
Proof. intros. now rewrite merge_dicts. Qed.

Lemma dget_filter_key : forall A (f : string -> bool) (d : dict A) k,
  dget k (filter (fun kv => f (fst kv)) d) = if f k then dget k d else None.
Proof.
  intros A f d k. induction d as [|[k0 v0] r IH]; cbn [filter dget fst]; [now destruct (f k)|].
  destruct (f k0) eqn:F; cbn [dget]; destruct (String.eqb_spec k k0) as [->|N].
  - now rewrite F.
  - exact IH.
  - rewrite IH, F. reflexivity.
  - exact IH.
Qed.
Lemma dget_filter_pair : forall A (f : string * A -> bool) (d : dict A) k, NoDup (dkeys d) ->
  dget k (filter f d) = match dget k d with Some v => if f (k, v) then Some v else None | None => None end.
Proof.
  intros A f d k N. induction d as [|[k0 v0] r IH]; cbn [filter dget]; [auto|].
  cbn [dkeys map fst] in N. inversion N; subst. specialize (IH H2).
  destruct (String.eqb_spec k k0) as [->|D].
  - destruct (f (k0, v0)) eqn:F; cbn [dget]; [now rewrite String.eqb_refl|].
    rewrite IH. apply dget_None in H1. now rewrite H1.
  - destruct (f (k0, v0)); cbn [dget]; [|exact IH]. apply String.eqb_neq in D. now rewrite D.
Qed.
Lemma NoDup_keys_filter : forall A (f : string * A -> bool) (d : dict A), NoDup (dkeys d) -> NoDup (dkeys (filter f d)).
Proof.
  intros A f d. induction d as [|[k v] r IH]; cbn [filter dkeys map fst]; intros N; [auto|]. inversion N; subst.
  destruct (f (k, v)); [|now apply IH]. cbn [dkeys map fst]. constructor; [|now apply IH].
  intros X. apply H1. unfold dkeys in X. apply in_map_iff in X. destruct X as [[k1 v1] [E X]]. cbn [fst] in E. subst k1.
  apply filter_In in X. destruct X as [X _]. unfold dkeys. apply in_map_iff. exists (k, v1). auto.
Qed.
Lemma dget_app : forall A (d e : dict A) k, dget k (d ++ e) = match dget k d with Some v => Some v | None => dget k e end.
Proof. intros A d e k. induction d as [|[k0 v0] r IH]; cbn [app dget]; [auto|]. destruct (String.eqb k k0); auto. Qed.

(* what the VLAN data say about an attribute of the VLAN interface *)
Definition from_vlan (x : nvlan) (k : string) : option val := if memS k (vt_svi_skip t) then None else dget k (nv_attr x).

(* the address of a VLAN interface: the address of the port, but in bridge mode the address in VLAN data *)
Definition expected_address (x : nvlan) (i : vintf) (af : string) : option val :=
  if String.eqb (mode_of i x) "bridge" then from_vlan x af else dget af (i_attr i).

Definition expected_name (v : string) (x : nvlan) : val :=
  match from_vlan x "name" with
  | Some (VBool true) | None => VStr (svi_desc v (nv_id x))
  | Some y => y
  end.
Definition expected_mtu (x : nvlan) (i : vintf) : option val :=
  match from_vlan x "mtu" with
  | Some y => Some y
  | None => if String.eqb (mode_of i x) "bridge" || vn_sysmtu nd then None else vn_mtu nd
  end.

Lemma svi_mode_of : forall i x, svi_mode i x = mode_of i x.
Proof. intros i x. unfold svi_mode, or_text, mode_of. destruct (p_mode (i_vlan i)) as [m|]; [destruct (String.eqb m "")|]; reflexivity. Qed.

Lemma svi_attrs_get : forall v x i k, NoDup (dkeys (nv_attr x)) ->
  dget k (svi_attrs svi_desc t nd v x i) =
    (if (k =? "gateway")%string then dget k (i_attr i)
     else if (k =? "ipv4")%string || (k =? "ipv6")%string then expected_address x i k
     else if (k =? "name")%string then Some (expected_name v x)
     else if (k =? "virtual_interface")%string
          then Some (match from_vlan x k with Some y => y | None => VBool true end)
     else if (k =? "mtu")%string then expected_mtu x i
     else from_vlan x k).
Proof.
  intros v x i k N. unfold svi_attrs. rewrite mdict_keys, svi_mode_of. unfold expected_address, expected_name, expected_mtu, from_vlan.
  set (mode := mode_of i x). 
  set (base := filter (fun kv => memS (fst kv) (copied mode)) (i_attr i) ++ _).
  set (over := filter _ (nv_attr x)).
  assert (NO : NoDup (dkeys over)) by (now apply NoDup_keys_filter).
  assert (GB : forall k, dget k base = if memS k (copied mode) then
      match dget k (i_attr i) with Some y => Some y | None => if (k =? "name")%string then Some (VStr (svi_desc v (nv_id x)))
        else if (k =? "virtual_interface")%string then Some (VBool true) else None end
      else if (k =? "name")%string then Some (VStr (svi_desc v (nv_id x)))
        else if (k =? "virtual_interface")%string then Some (VBool true) else None).
  { intros k0. unfold base. rewrite dget_app, (dget_filter_key _ (fun z => memS z (copied mode))). cbn [dget]. destruct (memS k0 (copied mode)); [|reflexivity].
    destruct (dget k0 (i_attr i)); reflexivity. }
  assert (GO : forall k, dget k over = match dget k (nv_attr x) with
      | Some y => if negb (memS k (vt_svi_skip t)) && negb (memS k (copied mode)) && (negb (is_true y) || negb (memS k (dkeys base))) then Some y else None
      | None => None end).
  { intros k0. unfold over. rewrite dget_filter_pair; [reflexivity|auto]. }
  assert (MB : forall k, memS k (dkeys base) = match dget k base with Some _ => true | None => false end).
  { intros k0. destruct (dget k0 base) eqn:E.
    - apply memS_true. eapply dget_Some_key; eauto.
    - apply memS_false. now apply dget_None. }
  assert (CM : forall k, memS k (copied mode) = ((k =? "gateway") || (negb (mode =? "bridge") && ((k =? "ipv4") || (k =? "ipv6"))))%string).
  { intros k0. unfold copied, memS. cbn [existsb]. destruct (mode =? "bridge")%string; cbn [existsb negb andb]; [reflexivity|].
    now rewrite orb_false_r. }
  (* all attributes but mtu *)
  assert (GD : dget k (mdict base over) =
    (if (k =? "gateway")%string then dget k (i_attr i)
     else if (k =? "ipv4")%string || (k =? "ipv6")%string then
        if (mode =? "bridge")%string then (if memS k (vt_svi_skip t) then None else dget k (nv_attr x)) else dget k (i_attr i)
     else if (k =? "name")%string then Some (match (if memS "name" (vt_svi_skip t) then None else dget "name"%string (nv_attr x)) with
         | Some (VBool true) | None => VStr (svi_desc v (nv_id x)) | Some y => y end)
     else if (k =? "virtual_interface")%string
          then Some (match (if memS k (vt_svi_skip t) then None else dget k (nv_attr x)) with Some y => y | None => VBool true end)
     else if memS k (vt_svi_skip t) then None else dget k (nv_attr x))).
  { rewrite dget_mdict; [|auto]. rewrite GO, MB, GB, CM.
    destruct (String.eqb_spec k "gateway") as [->|K1]; [cbn; destruct (dget "gateway"%string (nv_attr x));
      rewrite ?andb_false_r; cbn; destruct (dget "gateway"%string (i_attr i)); reflexivity|].
    cbn [orb].
    destruct ((k =? "ipv4")%string || (k =? "ipv6")%string) eqn:K2.
    { assert (K3 : (k =? "name")%string = false) by (apply orb_true_iff in K2; destruct K2 as [K2|K2]; apply String.eqb_eq in K2; subst k; reflexivity).
      assert (K4 : (k =? "virtual_interface")%string = false) by (apply orb_true_iff in K2; destruct K2 as [K2|K2]; apply String.eqb_eq in K2; subst k; reflexivity).
      rewrite K3, K4. destruct (mode =? "bridge")%string; cbn [negb andb].
      - destruct (dget k (nv_attr x)) as [y|]; cbn [mopt]; [|now destruct (memS k (vt_svi_skip t))].
        rewrite orb_true_r, !andb_true_r. destruct (memS k (vt_svi_skip t)); reflexivity.
      - rewrite andb_false_r. cbn [andb]. destruct (dget k (i_attr i)), (dget k (nv_attr x)); reflexivity. }
    rewrite andb_false_r. cbn [negb].
    destruct (String.eqb_spec k "name") as [->|K3].
    { cbn [String.eqb]. destruct (memS "name" (vt_svi_skip t)); cbn [negb andb].
      - destruct (dget "name"%string (nv_attr x)); reflexivity.
      - destruct (dget "name"%string (nv_attr x)) as [y|]; [|reflexivity]. cbn [negb]. rewrite orb_false_r.
        destruct y as [|[]| | | |]; cbn [is_true negb mopt]; reflexivity. }
    destruct (String.eqb_spec k "virtual_interface") as [->|K4].
    { destruct (memS "virtual_interface" (vt_svi_skip t)); cbn [negb andb].
      - destruct (dget "virtual_interface"%string (nv_attr x)); reflexivity.
      - destruct (dget "virtual_interface"%string (nv_attr x)) as [y|]; [|reflexivity]. cbn [negb]. rewrite orb_false_r.
        destruct y as [|[]| | | |]; cbn [is_true negb mopt]; reflexivity. }
    destruct (dget k (nv_attr x)) as [y|]; cbn [mopt]; [|now destruct (memS k (vt_svi_skip t))].
    rewrite orb_true_r, !andb_true_r. destruct (memS k (vt_svi_skip t)); reflexivity. }
  assert (GM : dmem "mtu"%string (mdict base over) = match (if memS "mtu" (vt_svi_skip t) then None else dget "mtu"%string (nv_attr x)) with Some _ => true | None => false end).
  { unfold dmem. rewrite dget_mdict; [|auto]. rewrite GO, MB, GB, CM. cbn [String.eqb Ascii.eqb Bool.eqb orb andb].
    rewrite andb_false_r. cbn [negb]. destruct (dget "mtu"%string (nv_attr x)) as [y|]; [|now destruct (memS "mtu" (vt_svi_skip t))].
    rewrite orb_true_r, !andb_true_r. destruct (memS "mtu" (vt_svi_skip t)); reflexivity. }
  destruct (vn_mtu nd) as [m|].
  2:{ rewrite GD. destruct (k =? "gateway")%string; [auto|]. destruct ((k =? "ipv4")%string || (k =? "ipv6")%string); [auto|].
      destruct (k =? "name")%string; [auto|]. destruct (k =? "virtual_interface")%string; [auto|].
      destruct (String.eqb_spec k "mtu") as [->|K]; [|auto]. destruct (if memS "mtu" (vt_svi_skip t) then None else _); [auto|].
      now destruct ((mode =? "bridge")%string || vn_sysmtu nd). }
  rewrite GM. destruct (String.eqb_spec k "mtu") as [->|K].
  - cbn [String.eqb Ascii.eqb Bool.eqb orb] in GD |- *.
    destruct (if memS "mtu" (vt_svi_skip t) then None else dget "mtu"%string (nv_attr x)) as [y|] eqn:E; cbn [negb andb].
    + exact GD.
    + destruct (mode =? "bridge")%string, (vn_sysmtu nd); cbn [negb andb orb]; try exact GD. apply dget_dset_same.
  - match goal with |- dget k (if ?b then _ else _) = _ => destruct b end; [rewrite dget_dset_other; auto|]; exact GD.
Qed.

(* VLAN data are dictionaries *)
Definition dicts (d : dict nvlan) : Prop := forall v x, dget v d = Some x -> NoDup (dkeys (nv_attr x)).

Lemma create_dicts : forall vlans bg v x vlans' bg', dicts (vt_vlans t) -> dicts vlans ->
  create_node_vlan vlans bg v = Some (x, vlans', bg') -> dicts vlans'.
Proof.
  intros vlans bg v x vlans' bg' Dt D C. apply create_node_vlan_inv in C. destruct C as [-> [_ [x0 [O E]]]].
  assert (X : NoDup (dkeys (nv_attr x0))).
  { destruct O as [O|[_ [g [G ->]]]]; [now apply (D v)|]. cbn [populated nv_attr]. apply NoDup_keys_filter. now apply (Dt v). }
  assert (Y : NoDup (dkeys (nv_attr x))).
  { destruct E as [[_ [-> _]]|[_ [b [_ [-> _]]]]]; exact X. }
  intros w y G. destruct (String.eqb_spec w v) as [->|N].
  - rewrite dget_dset_same in G. injection G as <-. exact Y.
  - rewrite dget_dset_other in G; [|auto]. now apply (D w).
Qed.
Lemma steps_dicts : forall l st st', dicts (vt_vlans t) -> csteps l st st' -> dicts (c_vlans st) -> dicts (c_vlans st').
Proof.
  intros l st st' Dt S. induction S as [|i r st st1 st2 A S IH]; intros D; [auto|]. apply IH.
  inversion A; subst; cbn [c_vlans]; [auto|eapply create_dicts; eauto..].
Qed.

(* C107: the VLAN interface is made from the first bridged port of the VLAN and from VLAN data *)
Theorem svi_data : forall l vlans bg nl c v s, vn_svi nd = true -> dicts vlans -> dicts (vt_vlans t) ->
  create_svi l (start vlans bg nl) = Some c -> dget v (c_svi c) = Some s ->
  exists l1 i l2 x, l = l1 ++ i :: l2 /\ bridged_on i v /\ (forall j, In j l1 -> ~ bridged_on j v) /\
    dget v (c_vlans c) = Some x /\
    i_type s = match nv_type x with Some y => y | None => "svi"%string end /\
    i_ifname s = svi_fmt (nv_id x) (nv_bg x) (i_ifname i) /\
    p_name (i_vlan s) = Some v /\ p_mode (i_vlan s) = nv_mode x /\
    p_access (i_vlan s) = None /\ p_native (i_vlan s) = None /\ p_trunk (i_vlan s) = [] /\ i_vname s = i_vname i /\
    (forall af, af = "ipv4"%string \/ af = "ipv6"%string -> dget af (i_attr s) = expected_address x i af) /\
    dget "gateway"%string (i_attr s) = dget "gateway"%string (i_attr i) /\
    dget "name"%string (i_attr s) = Some (expected_name v x) /\
    dget "mtu"%string (i_attr s) = expected_mtu x i /\
    (forall k, ~ In k ["gateway"; "ipv4"; "ipv6"; "name"; "virtual_interface"; "mtu"]%string -> dget k (i_attr s) = from_vlan x k).
Proof.
  intros l vlans bg nl c v s N D Dt H G. apply create_svi_steps in H; [|auto].
  pose proof (steps_dicts _ _ _ Dt H D) as DC.
  destruct (svi_origin _ _ _ H v s G eq_refl) as [l1 [i [l2 [x [E [B [F [X Y]]]]]]]].
  exists l1, i, l2, x. split; [auto|]. split; [auto|]. split; [auto|]. split; [auto|].
  destruct Y as [Y1 [Y2 [Y3 [Y4 [Y5 [Y6 [Y7 [Y8 Y9]]]]]]]]. rewrite Y9.
  do 8 (split; [assumption|]). specialize (DC v x X).
  split. { intros af [->| ->]; rewrite svi_attrs_get; auto. }
  split. { rewrite svi_attrs_get; auto. }
  split. { rewrite svi_attrs_get; auto. }
  split. { rewrite svi_attrs_get; auto. }
  intros k K. rewrite svi_attrs_get; [|auto]. cbn [In] in K.
  destruct (String.eqb_spec k "gateway") as [->|_]; [tauto|]. destruct (String.eqb_spec k "ipv4") as [->|_]; [tauto|].
  destruct (String.eqb_spec k "ipv6") as [->|_]; [tauto|]. destruct (String.eqb_spec k "name") as [->|_]; [tauto|].
  destruct (String.eqb_spec k "virtual_interface") as [->|_]; [tauto|]. destruct (String.eqb_spec k "mtu") as [->|_]; [tauto|]. reflexivity.
Qed.

(* VLAN interfaces are in the order of the first bridged ports *)
Lemma order_steps : forall l st st', csteps l st st' -> forall d d1 v s d2 w u d3,
  c_svi st' = c_svi st ++ d -> d = d1 ++ (v, s) :: d2 ++ (w, u) :: d3 -> NoDup (dkeys (c_svi st)) ->
  exists l1 i l2, l = l1 ++ i :: l2 /\ bridged_on i v /\ forall j, In j (l1 ++ [i]) -> ~ bridged_on j w.
Proof.
  intros l st st' S. induction S as [|i r st st1 st2 A S IH]; intros d d1 v s d2 w u d3 E D N.
  { assert (d = []) by (apply (app_inv_head (c_svi st)); now rewrite app_nil_r). subst d. now destruct d1. }
  pose proof (svi_grow _ _ _ (CSS_cons _ _ _ _ _ A S)) as [d' [E' [K ND]]].
  assert (d' = d) by (apply (app_inv_head (c_svi st)); congruence). subst d'.
  assert (NW : ~ In w (dkeys (c_svi st))).
  { apply (proj1 (K w)). rewrite D. rewrite keys_app. apply in_app_iff. right. cbn [dkeys map fst In]. right.
    rewrite map_app. apply in_app_iff. right. cbn [map fst In]. now left. }
  assert (VW : v <> w).
  { specialize (ND N). rewrite E, D, !keys_app in ND. apply NoDup_app_elim in ND. destruct ND as [_ [ND _]].
    apply NoDup_app_elim in ND. destruct ND as [_ [ND _]]. cbn [dkeys map fst] in ND. inversion ND; subst.
    intros ->. apply H1. rewrite map_app. apply in_app_iff. right. now left. }
  assert (Same : c_svi st1 = c_svi st -> ~ bridged_on i w -> exists l1 j l2, i :: r = l1 ++ j :: l2 /\ bridged_on j v /\ forall k, In k (l1 ++ [j]) -> ~ bridged_on k w).
  { intros Q B. destruct (IH d d1 v s d2 w u d3) as [l1 [j [l2 [L1 [L2 L3]]]]]; [congruence|auto|congruence|].
    exists (i :: l1), j, l2. split; [now rewrite L1|]. split; [auto|]. intros k [<-|X]; auto. }
  inversion A; subst; cbn [c_svi] in *.
  - apply Same; [auto|]. intros [U _]. apply port_vlan_uses in U. congruence.
  - apply Same; [auto|]. intros [_ [m [M1 M2]]]. destruct H as [_ H]. congruence.
  - apply Same; [auto|]. intros [U _]. destruct H as [U' _]. apply NW. rewrite (uses_fun _ _ _ U U'). eapply dget_Some_key; eauto.
  - destruct d1 as [|[k y] d1].
    + cbn [app] in *. destruct (svi_grow _ _ _ S) as [dd [Ee _]]. cbn [c_svi] in Ee. rewrite <- app_assoc in Ee. rewrite E in Ee.
      apply app_inv_head in Ee. injection Ee as <- _ _. exists [], i, r. split; [auto|]. split; [auto|].
      intros j [<-|[]] [U _]. destruct H as [U' _]. apply VW. now apply (uses_fun i).
    + destruct (svi_grow _ _ _ S) as [dd [Ee [Ke _]]]. cbn [c_svi] in Ee, Ke.
      assert (Q : c_svi st2 = (c_svi st ++ [(v0, s0)]) ++ dd) by auto. rewrite <- app_assoc in Ee. rewrite E in Ee.
      apply app_inv_head in Ee. cbn [app] in Ee. injection Ee as -> -> Ee.
      assert (Nv : ~ In v0 (dkeys (c_svi st))) by (now apply dget_None).
      destruct (IH dd d1 v s d2 w u d3) as [l1 [j [l2 [L1 [L2 L3]]]]]; [auto|auto| |].
      { rewrite keys_app. apply NoDup_app_intro; [auto|constructor; [intros []|constructor]|]. intros z Z [<-|[]]. auto. }
      exists (i :: l1), j, l2. split; [now rewrite L1|]. split; [auto|]. intros z [<-|X]; [|auto].
      intros [U _]. destruct H as [U' _]. 
      assert (W : In w (dkeys dd)).
      { rewrite <- Ee. rewrite keys_app. apply in_app_iff. right. cbn [dkeys map fst In]. right. rewrite map_app. apply in_app_iff. right. now left. }
      apply Ke in W. destruct W as [W _]. apply W. rewrite keys_app. apply in_app_iff. right. left. cbn. now apply (uses_fun i).
Qed.
Theorem svi_order : forall l vlans bg nl c d1 v s d2 w u d3, vn_svi nd = true -> create_svi l (start vlans bg nl) = Some c ->
  c_svi c = d1 ++ (v, s) :: d2 ++ (w, u) :: d3 ->
  exists l1 i l2, l = l1 ++ i :: l2 /\ bridged_on i v /\ forall j, In j (l1 ++ [i]) -> ~ bridged_on j w.
Proof.
  intros l vlans bg nl c d1 v s d2 w u d3 N H E. apply create_svi_steps in H; [|auto].
  eapply (order_steps _ _ _ H); [cbn [start c_svi app]; reflexivity|exact E|constructor].
Qed.

(* ---- interface indices ---- *)

Lemma free_index_first : forall n idx used k, (k < n)%nat -> (forall j, idx <= j < idx + Z.of_nat k -> In j used) ->
  ~ In (idx + Z.of_nat k) used -> free_index n idx used = Some (idx + Z.of_nat k).
Proof.
  induction n as [|n IH]; intros idx used k L A B; [lia|]. cbn [free_index].
  destruct k as [|k].
  - rewrite Z.add_0_r in *. assert (M : memZ idx used = false) by (now apply memZ_false). now rewrite M.
  - assert (M : memZ idx used = true) by (apply memZ_true; apply A; lia). rewrite M.
    rewrite (IH (idx + 1) used k); [f_equal; lia|lia| |].
    + intros j J. apply A. lia.
    + intros X. apply B. replace (idx + Z.of_nat (S k)) with (idx + 1 + Z.of_nat k) by lia. auto.
Qed.

Definition plain (s : vintf) : bool := String.eqb (i_type s) "svi".

Lemma make_svi_index : forall v x i all s e, make_svi v x i all = (s, e) -> i_index s = fst (svi_index all) /\ e = snd (svi_index all).
Proof. intros v x i all s e H. unfold Svi_Model.make_svi in H. destruct (svi_index all) as [idx e0]. injection H as <- <-. split; reflexivity. Qed.
Lemma svi_index_first : forall l k, (k < svi_count)%nat ->
  (forall j, svi_start <= j < svi_start + Z.of_nat k -> In j (map i_index (filter plain l))) ->
  ~ In (svi_start + Z.of_nat k) (map i_index (filter plain l)) -> svi_index l = (svi_start + Z.of_nat k, false).
Proof. intros l k K A B. unfold svi_index. fold plain. rewrite (free_index_first _ _ _ k K A B). reflexivity. Qed.

Lemma port_type : forall i r st st', cstep i r st st' -> exists j, c_done st' = c_done st ++ [j] /\ i_type j = i_type i.
Proof. intros i r st st' A. inversion A; subst; cbn [c_done]; eexists; (split; [reflexivity|reflexivity]). Qed.

Lemma no_plain : forall l, Forall (fun i => i_type i <> "svi"%string) l -> filter plain l = [].
Proof.
  intros l F. induction F as [|i r H F IH]; [auto|]. cbn [filter]. unfold plain at 1. apply String.eqb_neq in H. now rewrite H.
Qed.

Lemma index_steps : forall l st st', csteps l st st' ->
  Forall (fun i => i_type i <> "svi"%string) (c_done st ++ l) ->
  map i_index (filter plain (map snd (c_svi st))) = zseq svi_start (length (filter plain (map snd (c_svi st)))) ->
  (length (c_svi st') <= 1000)%nat ->
  map i_index (filter plain (map snd (c_svi st'))) = zseq svi_start (length (filter plain (map snd (c_svi st')))) /\
  (forall k v s, (length (c_svi st) <= k)%nat -> nth_error (c_svi st') k = Some (v, s) ->
     i_index s = svi_start + Z.of_nat (length (filter plain (map snd (firstn k (c_svi st')))))) /\
  (forall v, In (ENoSvi v) (c_errs st') -> In (ENoSvi v) (c_errs st)) /\ (In EIndex (c_errs st') -> In EIndex (c_errs st)).
Proof.
  intros l st st' S. induction S as [|i r st st1 st2 A S IH]; intros T I L.
  { split; [auto|]. split; [|auto]. intros k v s K E. assert (nth_error (c_svi st) k <> None) by congruence.
    apply nth_error_Some in H. lia. }
  destruct (port_type _ _ _ _ A) as [j [J1 J2]].
  assert (T1 : Forall (fun i => i_type i <> "svi"%string) (c_done st1 ++ r)).
  { rewrite J1. apply Forall_app in T. destruct T as [Ta Tb]. inversion Tb; subst. apply Forall_app. split; [|auto].
    apply Forall_app. split; [auto|]. constructor; [congruence|constructor]. }
  destruct (svi_grow _ _ _ S) as [d [Ed _]].
  inversion A; subst; cbn [c_svi c_errs c_done] in *.
  1,2,3: destruct (IH T1 I L) as [I1 [I2 I3]]; split; [auto|split; [auto|auto]].
  set (p := filter plain (map snd (c_svi st))) in *.
  assert (P : (length p < 1000)%nat).
  { rewrite Ed, <- app_assoc in L. rewrite !app_length in L. cbn [length app] in L. unfold p.
    assert (length (filter plain (map snd (c_svi st))) <= length (map snd (c_svi st)))%nat.
    { clear. induction (map snd (c_svi st)) as [|y q Q]; cbn [filter length]; [lia|]. destruct (plain y); cbn [length]; lia. }
    rewrite map_length in H3. lia. }
  assert (X : i_index s = svi_start + Z.of_nat (length p) /\ e = false).
  { apply make_svi_index in H2. destruct H2 as [-> ->].
    rewrite (svi_index_first _ (length p)); [split; reflexivity|exact P| |].
    - intros j' Hj. fold plain. rewrite app_assoc, filter_app, no_plain by auto. fold p. cbn [app]. rewrite I. apply zseq_In. exact Hj.
    - fold plain. rewrite app_assoc, filter_app, no_plain by auto. fold p. cbn [app]. rewrite I. rewrite zseq_In. lia. }
  destruct X as [X1 ->]. rewrite app_nil_r in IH.
  assert (I1 : map i_index (filter plain (map snd (c_svi st ++ [(v, s)]))) = zseq svi_start (length (filter plain (map snd (c_svi st ++ [(v, s)]))))).
  { rewrite map_app, filter_app. fold p. cbn [map snd filter]. destruct (plain s).
    - rewrite map_app, app_length. cbn [map length]. rewrite zseq_app, I. cbn [zseq]. now rewrite X1.
    - rewrite !app_nil_r. exact I. }
  destruct (IH T1 I1 L) as [Y1 [Y2 Y3]]. split; [auto|]. split; [|auto].
  intros k w u K E. destruct (Nat.eq_dec k (length (c_svi st))) as [->|D].
  - rewrite Ed, <- app_assoc in E |- *. rewrite nth_error_app2 in E by lia. rewrite Nat.sub_diag in E. cbn [app nth_error] in E. injection E as <- <-.
    rewrite firstn_app, Nat.sub_diag, firstn_all, app_nil_r. exact X1.
  - apply (Y2 k w u); [|auto]. rewrite app_length. cbn [length]. lia.
Qed.

(* C108: the index of a VLAN interface is 40000 plus the number of earlier VLAN interfaces of type svi *)
Theorem svi_index_exact : forall l vlans bg nl c k v s, vn_svi nd = true -> create_svi l (start vlans bg nl) = Some c ->
  Forall (fun i => i_type i <> "svi"%string) l -> (length (c_svi c) <= 1000)%nat -> nth_error (c_svi c) k = Some (v, s) ->
  c_errs c = [] /\
  i_index s = 40000 + Z.of_nat (length (filter (fun u => String.eqb (i_type u) "svi") (map snd (firstn k (c_svi c))))).
Proof.
  intros l vlans bg nl c k v s N H T L E. apply create_svi_steps in H; [|auto].
  assert (R : c_errs c = [] /\ i_index s = svi_start + Z.of_nat (length (filter plain (map snd (firstn k (c_svi c)))))).
  { destruct (index_steps _ _ _ H T eq_refl L) as [_ [X [Y Z]]]. split; [|apply (X k v s); [cbn [start c_svi length]; lia|auto]].
    assert (Q : forall l st st', csteps l st st' -> Forall (fun e => e = EIndex) (c_errs st) -> Forall (fun e => e = EIndex) (c_errs st')).
    { clear. intros l st st' S. induction S as [|i r st st1 st2 A S IH]; intros F; [auto|]. apply IH.
      inversion A; subst; cbn [c_errs]; auto. apply Forall_app. split; [auto|]. destruct e; repeat constructor. }
    specialize (Q _ _ _ H (Forall_nil _)). destruct (c_errs c) as [|e es]; [auto|]. inversion Q; subst. elim Z. now left. }
  exact R.
Qed.

Lemma firstn_in : forall A (l : list A) k x, In x (firstn k l) -> In x l.
Proof. intros A l k x H. rewrite <- (firstn_skipn k l). apply in_app_iff. now left. Qed.

Theorem svi_index_distinct : forall l vlans bg nl c, vn_svi nd = true -> create_svi l (start vlans bg nl) = Some c ->
  Forall (fun i => i_type i <> "svi"%string) l -> (length (c_svi c) <= 1000)%nat ->
  (forall v x, dget v (c_vlans c) = Some x -> nv_type x = None) ->
  map i_index (map snd (c_svi c)) = zseq 40000 (length (c_svi c)).
Proof.
  intros l vlans bg nl c N H T L Ty. 
  destruct (one_svi_per_vlan _ _ _ _ _ N H) as [ND _]. apply create_svi_steps in H; [|auto].
  destruct (index_steps _ _ _ H T eq_refl L) as [I _].
  assert (F : filter plain (map snd (c_svi c)) = map snd (c_svi c)).
  { assert (Q : forall p, In p (c_svi c) -> plain (snd p) = true).
    { intros [v s] Hp. apply dget_NoDup in Hp; [|auto].
      destruct (svi_origin _ _ _ H v s Hp eq_refl) as [_ [i [_ [x [_ [_ [_ [X Y]]]]]]]]. destruct Y as [Y _].
      rewrite (Ty v x X) in Y. cbn [snd]. unfold plain. now rewrite Y. }
    clear - Q. induction (c_svi c) as [|p r IH]; [auto|]. cbn [map filter]. rewrite Q by (now left). f_equal. apply IH. intros. apply Q. now right. }
  rewrite F in I. rewrite I, map_length. reflexivity.
Qed.
End Svi.

(* ---- a switch with two VLANs, a trunk and a routed subinterface ---- *)

Definition ex_fmt (id : Z) (bg : option Z) (name : string) : string := if id =? 1000 then "Vlan1000"%string else if id =? 1001 then "Vlan1001"%string else "Vlan"%string.
Definition ex_desc (v : string) (id : Z) : string := ("VLAN " ++ v)%string.
Definition ex_top : vtop :=
  mk_vtop [("red"%string, mk_nv 1000 (Some "irb"%string) None None [("ospf"%string, VDict [("area"%string, VInt 1)])]);
           ("blue"%string, mk_nv 1001 (Some "bridge"%string) None None []);
           ("green"%string, mk_nv 1002 (Some "route"%string) None None [])]
    None ["vlan"; "ospf"]%string ["ifindex"; "bandwidth"; "mtu"]%string ["id"; "vni"; "mode"]%string ["mtu"]%string.
Definition ex_node (n : string) : vnode :=
  mk_vnode n None ["vlan"; "ospf"]%string (Some (VInt 1500)) true false true true true None false false.
Definition ex_port (k : nat) (v fwd : string) (addr : string) (ngb : list vngb) : vintf :=
  mk_vi (Z.of_nat k) "lan" (append "eth" (if Nat.eqb k 1 then "1" else if Nat.eqb k 2 then "2" else "3"))%string (Some k) None 0%nat (Some fwd)
    (mk_vp (Some v) None None [] None None None false) (Some v) ngb None None None None None
    [("ipv4"%string, VStr addr); ("bandwidth"%string, VInt 10)].
Definition ex_ngb (n : string) : vngb := mk_vg n "eth1"%string (Some (VStr "172.16.0.9/24"%string)) None.
Definition ex_ports : list vintf :=
  [ex_port 1 "red" "irb" "172.16.0.1/24" [ex_ngb "h1"%string]; ex_port 2 "blue" "bridge" "172.16.1.1/24" [ex_ngb "h2"%string];
   ex_port 3 "red" "irb" "172.16.0.1/24" [ex_ngb "h3"%string]].
Definition ex_nl : nlists := mk_nl [] [].
Definition ex_svi (ports : list vintf) : option cstate := create_svi ex_fmt ex_desc ex_top (ex_node "s1"%string) ports (start [] None ex_nl).

Example one_svi_case : option_map (fun c => dkeys (c_svi c)) (ex_svi ex_ports) = Some ["red"; "blue"]%string.
Proof. vm_compute. reflexivity. Qed.

Example svi_data_case :
  dicts (vt_vlans ex_top) /\ dicts [] /\
  option_map (fun c => map (fun p => (i_type (snd p), i_ifname (snd p), i_index (snd p), i_attr (snd p))) (c_svi c)) (ex_svi ex_ports) = Some
    [("svi", "Vlan1000", 40000, [("ipv4", VStr "172.16.0.1/24"); ("name", VStr "VLAN red"); ("virtual_interface", VBool true);
                                 ("ospf", VDict [("area", VInt 1)]); ("mtu", VInt 1500)]);
     ("svi", "Vlan1001", 40001, [("name", VStr "VLAN blue"); ("virtual_interface", VBool true)])]%string.
Proof.
  split; [|split].
  - intros v x G. cbn [ex_top vt_vlans dget] in G. repeat match type of G with (if ?b then _ else _) = _ => destruct b end; try discriminate;
      injection G as <-; cbn [nv_attr dkeys map fst]; repeat constructor; intros [].
  - intros v x G. discriminate.
  - vm_compute. reflexivity.
Qed.

(* Two interfaces of a VLAN with different addresses: the address of the second one is lost *)
Theorem svi_addresses_refuted : exists c, 
  ex_svi [ex_port 1 "red" "irb" "172.16.0.1/24" []; ex_port 2 "red" "irb" "172.16.0.2/24" []] = Some c /\
  forall s, In s (c_done c ++ map snd (c_svi c)) -> dget "ipv4"%string (i_attr s) <> Some (VStr "172.16.0.2/24").
Proof.
  eexists. split; [vm_compute; reflexivity|]. intros s I. cbn in I. repeat destruct I as [<-|I]; try contradiction; vm_compute; discriminate.
Qed.

(* A VLAN with a link type: the VLAN interfaces have the same index *)
Theorem svi_index_refuted : exists t vlans c,
  create_svi ex_fmt ex_desc t (ex_node "s1"%string) [ex_port 1 "red" "irb" "172.16.0.1/24" []; ex_port 2 "blue" "irb" "172.16.1.1/24" []]
    (start vlans None ex_nl) = Some c /\
  c_errs c = [] /\ map i_index (map snd (c_svi c)) = [40000; 40000].
Proof.
  exists ex_top, [("red"%string, mk_nv 1000 (Some "irb"%string) (Some "lan"%string) None [])]. eexists. split; [vm_compute; reflexivity|].
  split; reflexivity.
Qed.

(* A bridged VLAN with an address in the node VLAN data: the VLAN interface has an address *)
Theorem svi_bridge_address_refuted : exists vlans c s,
  create_svi ex_fmt ex_desc ex_top (ex_node "s1"%string) [ex_port 1 "blue" "bridge" "172.16.1.1/24" []] (start vlans None ex_nl) = Some c /\
  dget "blue"%string (c_svi c) = Some s /\ p_mode (i_vlan s) = Some "bridge"%string /\ dget "ipv4"%string (i_attr s) = Some (VStr "10.1.1.1/24").
Proof.
  exists [("blue"%string, mk_nv 1001 (Some "bridge"%string) None None [("ipv4"%string, VStr "10.1.1.1/24")])]. do 2 eexists.
  split; [vm_compute; reflexivity|]. split; [reflexivity|]. split; reflexivity.
Qed.

Example svi_index_case : Forall (fun i => i_type i <> "svi"%string) ex_ports /\
  exists c, ex_svi ex_ports = Some c /\ (length (c_svi c) <= 1000)%nat /\ (forall v x, dget v (c_vlans c) = Some x -> nv_type x = None) /\
  map i_index (map snd (c_svi c)) = [40000; 40001].
Proof.
  split; [repeat constructor; discriminate|]. eexists. split; [vm_compute; reflexivity|]. split; [cbn [c_svi length]; lia|]. split; [|reflexivity].
  intros v x G. cbn [c_vlans dget] in G. repeat match type of G with (if ?b then _ else _) = _ => destruct b end; try discriminate; now injection G as <-.
Qed.
Example svi_order_case : exists c s u, ex_svi ex_ports = Some c /\ c_svi c = [] ++ ("red"%string, s) :: [] ++ ("blue"%string, u) :: [].
Proof. do 3 eexists. split; vm_compute; reflexivity. Qed.

Print Assumptions one_svi_per_vlan.
Print Assumptions svi_data.
Print Assumptions svi_order.
Print Assumptions svi_index_exact.
Print Assumptions svi_index_distinct.
Print Assumptions svi_addresses_refuted.
Print Assumptions svi_index_refuted.
Print Assumptions svi_bridge_address_refuted.
