(* Properties C33, C34 and C39: VLAN ids, VNIs, VLAN forwarding modes and VXLAN flood lists. *)
From Coq Require Import String ZArith Lia Bool List Permutation.
From Verif Require Import Base IdAlloc_Model IdAlloc_Props Vlan_Model.
Import ListNotations.
Open Scope Z_scope.

(* ------------------------------------------------------------------ *)
(* Specification                                                        *)

(* A VLAN of a topology: (None, v) is a global VLAN, (Some n, v) VLAN v of node n. *)
Definition slot := (option string * string)%type.

Definition vlan_at (t : vtopo) (s : slot) : option vlan :=
  match s with
  | (None, k) => dget k (tp_vlans t)
  | (Some n, k) => match dget n (tp_nodes t) with Some nd => dget k (vn_vlans nd) | None => None end
  end.

(* The VLAN that identifiers belong to: the global VLAN if there is one with that name. *)
Definition owner (t : vtopo) (s : slot) : slot :=
  if dmem (snd s) (tp_vlans t) then (None, snd s) else s.

Definition wf_topo (t : vtopo) : Prop :=
  NoDup (dkeys (tp_vlans t)) /\ NoDup (dkeys (tp_nodes t))
  /\ (forall n nd, dget n (tp_nodes t) = Some nd -> NoDup (dkeys (vn_vlans nd)))
  /\ (forall s x, vlan_at t s = Some x -> vl_merged x = false).

(* ------------------------------------------------------------------ *)
(* Lemmas: the used identifiers                                         *)

Lemma extend_nodes_used : forall f ns v x,
  In x (iv_used (extend_nodes f ns v)) <->
  In x (iv_used v) \/ exists n nd, In (n, nd) ns /\ In x (f (vn_vlans nd)).
Proof.
  induction ns as [|[n nd] r IH]; intros v x; cbn [extend_nodes].
  - split; [auto|]. intros [H|[n [nd [[] _]]]]; auto.
  - rewrite IH. cbn [extend_id_set iv_used]. rewrite in_app_iff. split.
    + intros [[H|H]|[n' [nd' [H1 H2]]]]; auto.
      * right. exists n, nd. split; [left|]; auto.
      * right. exists n', nd'. split; [right|]; auto.
    + intros [H|[n' [nd' [[H1|H1] H2]]]]; auto.
      * inversion H1; subst. auto.
      * right. exists n', nd'. auto.
Qed.

Lemma extend_nodes_counter : forall f ns v,
  iv_next (extend_nodes f ns v) = iv_next v /\ iv_max (extend_nodes f ns v) = iv_max v.
Proof.
  induction ns as [|[n nd] r IH]; intros v; cbn [extend_nodes]; auto.
  destruct (IH (extend_id_set (f (vn_vlans nd)) v)) as [H1 H2]. now rewrite H1, H2.
Qed.

Lemma id_set_In : forall d i, In i (id_set d) <-> exists k x, In (k, x) d /\ vl_id x = Some i.
Proof.
  intros d i. unfold id_set. rewrite in_flat_map. split.
  - intros [[k x] [H1 H2]]. cbn [snd] in H2. exists k, x. split; auto.
    destruct (vl_id x); [destruct H2 as [->|[]]; auto | destruct H2].
  - intros [k [x [H1 H2]]]. exists (k, x). split; auto. cbn [snd]. rewrite H2. left; auto.
Qed.

Lemma vni_set_In : forall d i, In i (vni_set d) <-> exists k x, In (k, x) d /\ vl_vni x = Some (VniN i).
Proof.
  intros d i. unfold vni_set. rewrite in_flat_map. split.
  - intros [[k x] [H1 H2]]. cbn [snd] in H2. exists k, x. split; auto.
    destruct (vl_vni x) as [[b|n]|]; [destruct H2 | destruct H2 as [->|[]]; auto | destruct H2].
  - intros [k [x [H1 H2]]]. exists (k, x). split; auto. cbn [snd]. rewrite H2. left; auto.
Qed.

(* ------------------------------------------------------------------ *)
(* Allocation traces                                                    *)

(* what an allocation run did: the new identifiers, none of which was used before *)
Definition grown (v v' : idvar) (news : list Z) : Prop :=
  (forall i, In i (iv_used v') <-> In i news \/ In i (iv_used v))
  /\ NoDup news /\ (forall i, In i news -> ~ In i (iv_used v)).

Lemma grown_nil : forall v, grown v v [].
Proof. intros v. split; [|split]; [intros i; cbn; tauto | constructor | intros i []]. Qed.

Lemma grown_trans : forall v1 v2 v3 a b, grown v1 v2 a -> grown v2 v3 b -> grown v1 v3 (a ++ b).
Proof.
  intros v1 v2 v3 a b [A1 [A2 A3]] [B1 [B2 B3]]. split; [|split].
  - intros i. rewrite B1, A1, in_app_iff. tauto.
  - apply NoDup_app_intro; auto. intros i Ha Hb. apply (B3 i Hb). apply A1. auto.
  - intros i Hi. apply in_app_or in Hi. destruct Hi as [Hi|Hi]; auto.
    intros C. apply (B3 i Hi). apply A1. auto.
Qed.

Lemma grown_next : forall v i v', get_next_id v = Ok (i, v') -> grown v v' [i].
Proof.
  intros v i v' H. apply get_next_id_ok in H. destruct H as [n [_ [_ [H [_ [_ ->]]]]]].
  split; [|split].
  - intros j. cbn. tauto.
  - constructor; [intros []|constructor].
  - intros j [<-|[]]. auto.
Qed.

Lemma grown_mono : forall v v' news i, grown v v' news -> In i (iv_used v) -> In i (iv_used v').
Proof. intros v v' news i [G _] H. apply G. auto. Qed.

Lemma counter_next : forall s m v i v', counter_inv s m v -> get_next_id v = Ok (i, v') ->
  counter_inv s m v' /\ s <= i <= m.
Proof.
  intros s m v i v' C H.
  split.
  - apply (counter_inv_step s m OpNext v (EvAuto i) v'); cbn; auto. now rewrite H.
  - apply get_next_id_ok in H. destruct H as [n [Hn [H1 [_ [_ [H2 _]]]]]].
    destruct C as [Cm [n' [Cn [Cr _]]]]. rewrite Hn in Cn. inversion Cn; subst. lia.
Qed.

(* ------------------------------------------------------------------ *)
(* validate_vlan_attributes                                             *)

Lemma default_mode_id : forall b m x, vl_id (default_mode b m x) = vl_id x
  /\ vl_vni (default_mode b m x) = vl_vni x /\ vl_merged (default_mode b m x) = vl_merged x.
Proof.
  intros b m x. unfold default_mode.
  destruct (vl_mode x); auto. destruct m as [[|c m]|]; auto. destruct b; auto.
Qed.

Lemma default_mode_mode : forall b m x,
  vl_mode x <> None \/ b = true -> vl_mode (default_mode b m x) = vl_mode x.
Proof.
  intros b m x H. unfold default_mode.
  destruct (vl_mode x) eqn:E; auto. destruct m as [[|c m]|]; auto.
  destruct H as [H| ->]; [contradiction|]. auto.
Qed.

(* relation between a VLAN before and after *)
Definition vlan_filled (news : list (string * Z)) (kx kx' : string * vlan) : Prop :=
  fst kx' = fst kx
  /\ vl_vni (snd kx') = vl_vni (snd kx)
  /\ vl_merged (snd kx') = vl_merged (snd kx)
  /\ match vl_id (snd kx) with
     | Some i => vl_id (snd kx') = Some i
     | None => exists i, vl_id (snd kx') = Some i /\ In (fst kx, i) news
     end.

Lemma vlan_filled_mono : forall n1 n2 a b,
  (forall z, In z n1 -> In z n2) -> vlan_filled n1 a b -> vlan_filled n2 a b.
Proof.
  intros n1 n2 a b I [H1 [H2 [H3 H4]]]. split; [|split; [|split]]; auto.
  destruct (vl_id (snd a)); auto. destruct H4 as [i [H4 H5]]. eauto.
Qed.

Lemma Forall2_mono : forall A B (R S : A -> B -> Prop) l l',
  (forall a b, R a b -> S a b) -> Forall2 R l l' -> Forall2 S l l'.
Proof. induction 2; constructor; auto. Qed.

Lemma validate_spec : forall b m d v d' v' s mx,
  validate_vlan_attributes b m d v = Ok (d', v') -> counter_inv s mx v ->
  exists news, grown v v' (map snd news)
    /\ Forall2 (vlan_filled news) d d'
    /\ (forall k i, In (k, i) news -> s <= i <= mx)
    /\ counter_inv s mx v'
    /\ Forall2 (fun kx kx' : string * vlan => vl_mode (snd kx) <> None \/ b = true -> vl_mode (snd kx') = vl_mode (snd kx)) d d'.
Proof.
  induction d as [|[k x] r IH]; intros v d' v' s mx H C; cbn [validate_vlan_attributes] in H.
  - inversion H; subst. exists []. split; [apply grown_nil|]. split; [constructor|].
    split; [intros k i []|]. split; [auto|constructor].
  - destruct (default_mode_id b m x) as [D1 [D2 D3]].
    pose proof (default_mode_mode b m x) as D4.
    remember (default_mode b m x) as x1 eqn:Ex1.
    destruct (vl_id x1) as [i|] eqn:Ei.
    + destruct (validate_vlan_attributes b m r v) as [[r' v2]|e] eqn:R; [|discriminate].
      inversion H; subst d' v2. destruct (IH v r' v' s mx R C) as [news [G [F [Rg [C' M]]]]].
      exists news. split; [auto|]. split; [|split; [auto|split; [auto|constructor; auto]]]. constructor; auto.
      split; [|split; [|split]]; cbn [fst snd]; auto. rewrite <- D1. auto.
    + destruct (get_next_id v) as [[i v1]|e] eqn:N; [|discriminate].
      destruct (validate_vlan_attributes b m r v1) as [[r' v2]|e] eqn:R; [|discriminate].
      inversion H; subst d' v2.
      destruct (counter_next s mx v i v1 C N) as [C1 Ri].
      destruct (IH v1 r' v' s mx R C1) as [news [G [F [Rg [C' M]]]]].
      exists ((k, i) :: news). cbn [map snd]. split; [|split; [|split; [|split; [auto|constructor; auto]]]].
      * change (i :: map snd news) with ([i] ++ map snd news).
        eapply grown_trans; [apply grown_next; exact N | exact G].
      * constructor.
        { split; [|split; [|split]]; cbn [fst snd vl_vni vl_merged vl_id]; auto.
          rewrite <- D1. exists i. split; auto. left; auto. }
        { eapply Forall2_mono; [|exact F]. intros a b0. apply vlan_filled_mono. intros z Hz. right; auto. }
      * intros k' i' [E|Hi]; [inversion E; subst; auto | eauto].
Qed.

Lemma Forall2_keys : forall (R : string * vlan -> string * vlan -> Prop) d d',
  (forall a b, R a b -> fst b = fst a) -> Forall2 R d d' -> dkeys d' = dkeys d.
Proof.
  intros R d d' HR F. induction F as [|a b d d' H F IH]; auto.
  cbn [dkeys map] in *. rewrite (HR a b H). f_equal. exact IH.
Qed.

Lemma Forall2_dget : forall (R : string * vlan -> string * vlan -> Prop) d d' k,
  (forall a b, R a b -> fst b = fst a) -> Forall2 R d d' ->
  match dget k d, dget k d' with
  | Some x, Some x' => R (k, x) (k, x')
  | None, None => True
  | _, _ => False
  end.
Proof.
  intros R d d' k HR F. induction F as [|[a x] [b y] d d' H F IH]; cbn [dget]; auto.
  pose proof (HR _ _ H) as E. cbn [fst] in E. subst b.
  destruct (String.eqb k a) eqn:Ek; auto.
  apply String.eqb_eq in Ek. subst. auto.
Qed.

(* ------------------------------------------------------------------ *)
(* node_pre_transform                                                   *)

Definition node_done (t : vtopo) (news : list (string * string * Z)) (name : string) (n : vnode)
  (kx kx' : string * vlan) : Prop :=
  fst kx' = fst kx
  /\ vl_mode (snd kx') = vl_mode (snd (node_pre_vlan t n kx))
  /\ vl_vni (snd kx') = vl_vni (snd (node_pre_vlan t n kx))
  /\ vl_merged (snd kx') = vl_merged (snd (node_pre_vlan t n kx))
  /\ match vl_id (snd (node_pre_vlan t n kx)) with
     | Some i => vl_id (snd kx') = Some i
     | None => exists i, vl_id (snd kx') = Some i /\ In (name, fst kx, i) news
     end.

Lemma or_str_irb : forall a, exists c m, or_str a (Some "irb"%string) = Some (String c m).
Proof. intros [[|c m]|]; cbn; eauto. Qed.

Lemma or_str_keep : forall a b, (exists c m, b = Some (String c m)) -> exists c m, or_str a b = Some (String c m).
Proof. intros [[|c m]|] b H; cbn; eauto. Qed.

Lemma set_mode_some : forall n a b c, exists ch m, vl_mode (set_node_vlan_mode n a b c) = Some (String ch m).
Proof. intros. cbn [set_node_vlan_mode vl_mode]. repeat apply or_str_keep. eauto. Qed.

Lemma node_pre_vlan_mode : forall t n kx, vl_mode (snd (node_pre_vlan t n kx)) <> None.
Proof.
  intros t n [k x]. unfold node_pre_vlan. destruct (dget k (tp_vlans t)) as [g|]; cbn [snd].
  - unfold merge_vlan. cbn [vl_mode]. destruct (set_mode_some x (vn_mode n) (vl_mode g) (tp_mode t)) as [c [m ->]].
    discriminate.
  - destruct (set_mode_some x (vn_mode n) (vl_mode x) (tp_mode t)) as [c [m ->]]. discriminate.
Qed.

Lemma node_pre_vlan_key : forall t n kx, fst (node_pre_vlan t n kx) = fst kx.
Proof. intros t n [k x]. unfold node_pre_vlan. destruct (dget k (tp_vlans t)); auto. Qed.

Lemma Forall2_map_l : forall A B C (f : A -> B) (R : B -> C -> Prop) l l',
  Forall2 R (map f l) l' -> Forall2 (fun a c => R (f a) c) l l'.
Proof.
  induction l as [|a l IH]; intros l' H; inversion H; subst; constructor; auto.
Qed.

Lemma Forall2_conj : forall A B (R S : A -> B -> Prop) l l',
  Forall2 R l l' -> Forall2 S l l' -> Forall2 (fun a b => R a b /\ S a b) l l'.
Proof. induction 1; intros H'; inversion H'; subst; constructor; auto. Qed.

Definition node_rel (t : vtopo) (news : list (string * string * Z)) (a b : string * vnode) : Prop :=
  fst b = fst a /\ vn_mode (snd b) = vn_mode (snd a) /\ vn_vxlan (snd b) = vn_vxlan (snd a)
  /\ Forall2 (node_done t news (fst a) (snd a)) (vn_vlans (snd a)) (vn_vlans (snd b)).

Lemma node_done_mono : forall t n1 n2 name n a b,
  (forall z, In z n1 -> In z n2) -> node_done t n1 name n a b -> node_done t n2 name n a b.
Proof.
  intros t n1 n2 name n a b I [H1 [H2 [H3 [H4 H5]]]]. repeat (split; [assumption|]).
  destruct (vl_id (snd (node_pre_vlan t n a))); auto. destruct H5 as [i [H5 H6]]. eauto.
Qed.

Lemma node_rel_mono : forall t n1 n2 a b,
  (forall z, In z n1 -> In z n2) -> node_rel t n1 a b -> node_rel t n2 a b.
Proof.
  intros t n1 n2 a b I [H1 [H2 [H3 H4]]]. repeat (split; [assumption|]).
  eapply Forall2_mono; [|exact H4]. intros x y. apply node_done_mono. exact I.
Qed.

Lemma nodes_pre_spec : forall t ns v errs ns' v' s mx,
  nodes_pre_transform t ns v = Ok (errs, ns', v') -> counter_inv s mx v ->
  exists news, grown v v' (map snd news)
    /\ Forall2 (node_rel t news) ns ns'
    /\ (forall z i, In (z, i) news -> s <= i <= mx)
    /\ errs = flat_map (fun kn => node_pre_errors t (fst kn) (snd kn)) ns.
Proof.
  induction ns as [|[name n] r IH]; intros v errs ns' v' s mx H C; cbn [nodes_pre_transform] in H.
  - inversion H; subst. exists []. split; [apply grown_nil|]. split; [constructor|]. split; [intros z i []|auto].
  - destruct (validate_vlan_attributes false _ _ v) as [[d v1]|e] eqn:V; [|discriminate].
    destruct (nodes_pre_transform t r v1) as [[[errs1 ns1] v2]|e] eqn:R; [|discriminate].
    inversion H; subst errs ns' v2.
    destruct (validate_spec _ _ _ _ _ _ s mx V C) as [n1 [G1 [F1 [R1 [C1 M1]]]]].
    destruct (IH v1 errs1 ns1 v' s mx R C1) as [n2 [G2 [F2 [R2 E2]]]].
    exists (map (fun ki => (name, fst ki, snd ki)) n1 ++ n2). split; [|split; [|split]].
    + rewrite map_app, map_map. cbn [snd]. eapply grown_trans; [|exact G2].
      rewrite (map_ext _ snd) by reflexivity. exact G1.
    + constructor.
      * split; [reflexivity|]. split; [reflexivity|]. split; [reflexivity|]. cbn [fst snd vn_vlans].
        apply Forall2_map_l in F1. apply Forall2_map_l in M1.
        eapply Forall2_mono; [|exact (Forall2_conj _ _ _ _ _ _ F1 M1)].
        intros kx kx' [[K1 [K2 [K3 K4]]] K5]. split; [|split; [|split; [|split]]]; auto.
        { now rewrite K1, node_pre_vlan_key. }
        { apply K5. left. apply node_pre_vlan_mode. }
        { destruct (vl_id (snd (node_pre_vlan t n kx))); auto.
          destruct K4 as [i [K4 K6]]. exists i. split; auto. apply in_or_app. left.
          rewrite node_pre_vlan_key in K6. apply in_map_iff. exists (fst kx, i). split; auto. }
      * eapply Forall2_mono; [|exact F2]. intros a b. apply node_rel_mono.
        intros z Hz. apply in_or_app. auto.
    + intros z i Hz. apply in_app_or in Hz. destruct Hz as [Hz|Hz]; [|eauto].
      apply in_map_iff in Hz. destruct Hz as [[k i'] [E Hz]]. inversion E; subst. eauto.
    + cbn [flat_map fst snd]. f_equal. auto.
Qed.

Lemma Forall2_nodes_dget : forall t news ns ns' k,
  Forall2 (node_rel t news) ns ns' ->
  match dget k ns, dget k ns' with
  | Some n, Some n' => node_rel t news (k, n) (k, n')
  | None, None => True
  | _, _ => False
  end.
Proof.
  intros t news ns ns' k F. induction F as [|[a x] [b y] d d' H F IH]; cbn [dget]; auto.
  assert (E : b = a) by (destruct H as [H _]; exact H). subst b.
  destruct (String.eqb k a) eqn:Ek; auto.
  apply String.eqb_eq in Ek. subst. auto.
Qed.

Lemma Forall2_nodes_keys : forall t news ns ns',
  Forall2 (node_rel t news) ns ns' -> dkeys ns' = dkeys ns.
Proof.
  intros t news ns ns' F. induction F as [|a b d d' H F IH]; auto.
  cbn [dkeys map] in *. destruct H as [-> _]. f_equal. exact IH.
Qed.

(* everything known about the result of vlan_pre_transform *)
Record pre_facts (t t' : vtopo) (gnews : list (string * Z)) (nnews : list (string * string * Z)) (t1 : vtopo) : Prop := {
  pf_t1 : t1 = with_vlans t (tp_vlans t') (tp_nodes t);
  pf_t' : t' = with_vlans t (tp_vlans t') (tp_nodes t');
  pf_glob : Forall2 (vlan_filled gnews) (tp_vlans t) (tp_vlans t');
  pf_gmode : Forall2 (fun kx kx' : string * vlan => vl_mode (snd kx') = vl_mode (snd kx)) (tp_vlans t) (tp_vlans t');
  pf_nodes : Forall2 (node_rel t1 nnews) (tp_nodes t) (tp_nodes t');
  pf_nodup : NoDup (map snd gnews ++ map snd nnews);
  pf_fresh : forall i, In i (map snd gnews ++ map snd nnews) -> ~ In i (iv_used (populate_vlan_id_set t));
  pf_range : forall i, In i (map snd gnews ++ map snd nnews) -> tp_start t <= i <= 4094
}.

Lemma populate_counter : forall t, tp_start t <= 4094 -> counter_inv (tp_start t) 4094 (populate_vlan_id_set t).
Proof.
  intros t H. unfold populate_vlan_id_set.
  match goal with |- counter_inv _ _ (extend_nodes ?f ?ns ?v) => destruct (extend_nodes_counter f ns v) as [E1 E2] end.
  split; [rewrite E2; reflexivity|]. exists (tp_start t). rewrite E1. split; [reflexivity|]. split; [lia|].
  intros y Hy. lia.
Qed.

Lemma vlan_pre_facts : forall t errs t', vlan_pre_transform t = Ok (errs, t') -> tp_start t <= 4094 ->
  exists gnews nnews t1, pre_facts t t' gnews nnews t1
    /\ errs = flat_map (fun kn => node_pre_errors t1 (fst kn) (snd kn)) (tp_nodes t).
Proof.
  intros t errs t' H S. unfold vlan_pre_transform in H.
  destruct (validate_vlan_attributes true _ (tp_vlans t) (populate_vlan_id_set t)) as [[gd v1]|e] eqn:V; [|discriminate].
  destruct (validate_spec _ _ _ _ _ _ _ _ V (populate_counter t S)) as [gnews [G1 [F1 [R1 [C1 M1]]]]].
  cbn [with_vlans tp_nodes] in H.
  destruct (nodes_pre_transform _ (tp_nodes t) v1) as [[[errs1 ns1] v2]|e] eqn:R; [|discriminate].
  inversion H; subst errs1 t'. clear H.
  destruct (nodes_pre_spec _ _ _ _ _ _ _ _ R C1) as [nnews [G2 [F2 [R2 E2]]]].
  exists gnews, nnews, (with_vlans t gd (tp_nodes t)). split; [|exact E2].
  destruct (grown_trans _ _ _ _ _ G1 G2) as [GT1 [GT2 GT3]].
  constructor; auto.
  - cbn [with_vlans tp_vlans]. eapply Forall2_mono; [|exact M1]. cbn. intros a b Hab. auto.
  - intros i Hi. apply in_app_or in Hi. destruct Hi as [Hi|Hi];
      apply in_map_iff in Hi; destruct Hi as [[z i'] [<- Hi]]; cbn [snd]; eauto.
Qed.

Lemma populate_used : forall t i, In i (iv_used (populate_vlan_id_set t)) <->
  exists s x, (In s (map (pair None) (dkeys (tp_vlans t))) /\ In (snd s, x) (tp_vlans t)
     \/ exists n nd, s = (Some n, snd s) /\ In (n, nd) (tp_nodes t) /\ In (snd s, x) (vn_vlans nd))
    /\ vl_id x = Some i.
Proof.
  intros t i. unfold populate_vlan_id_set. rewrite extend_nodes_used.
  cbn [set_id_counter extend_id_set create_id_set iv_used]. rewrite app_nil_r, id_set_In. split.
  - intros [[k [x [H1 H2]]]|[n [nd [H1 H2]]]].
    + exists (None, k), x. split; auto. left. split; auto. apply in_map. apply in_map_iff. exists (k, x). auto.
    + apply id_set_In in H2. destruct H2 as [k [x [H2 H3]]]. exists (Some n, k), x. split; auto.
      right. exists n, nd. auto.
  - intros [[o k] [x [[[_ H1]|[n [nd [H0 [H1 H3]]]]] H2]]]; cbn [snd] in *.
    + left. eauto.
    + right. exists n, nd. split; auto. apply id_set_In. eauto.
Qed.

Lemma static_used : forall t s x i, vlan_at t s = Some x -> vl_id x = Some i -> In i (iv_used (populate_vlan_id_set t)).
Proof.
  intros t [[n|] k] x i H1 H2; apply populate_used; cbn [vlan_at] in H1.
  - destruct (dget n (tp_nodes t)) as [nd|] eqn:E; [|discriminate].
    exists (Some n, k), x. split; auto. right. exists n, nd. split; [auto|]. split; apply dget_In; auto.
  - exists (None, k), x. split; auto. left. split; [|apply dget_In; auto].
    apply in_map. eapply dget_Some_key; eauto.
Qed.

Lemma vlan_filled_key : forall news a b, vlan_filled news a b -> fst b = fst a.
Proof. intros news a b [H _]. auto. Qed.
Lemma node_done_key : forall t news name n a b, node_done t news name n a b -> fst b = fst a.
Proof. intros t news name n a b [H _]. auto. Qed.

(* the allocation made for a slot *)
Definition in_news (gnews : list (string * Z)) (nnews : list (string * string * Z)) (s : slot) (i : Z) : Prop :=
  match fst s with
  | None => In (snd s, i) gnews
  | Some n => In (n, snd s, i) nnews
  end.

Lemma in_news_inj : forall gnews nnews s1 s2 i,
  NoDup (map snd gnews ++ map snd nnews) -> in_news gnews nnews s1 i -> in_news gnews nnews s2 i -> s1 = s2.
Proof.
  intros gnews nnews [[n1|] k1] [[n2|] k2] i ND H1 H2; unfold in_news in *; cbn [fst snd] in *;
    destruct (NoDup_app_elim _ _ ND) as [NG [NN D]].
  - assert (E : (n1, k1, i) = (n2, k2, i)) by (apply (NoDup_map_inv_in snd nnews); auto).
    inversion E; auto.
  - exfalso. apply (D i); [apply in_map_iff; exists (k2, i); auto | apply in_map_iff; exists (n1, k1, i); auto].
  - exfalso. apply (D i); [apply in_map_iff; exists (k1, i); auto | apply in_map_iff; exists (n2, k2, i); auto].
  - assert (E : (k1, i) = (k2, i)) by (apply (NoDup_map_inv_in snd gnews); auto).
    inversion E; auto.
Qed.

Lemma in_news_in : forall gnews nnews s i, in_news gnews nnews s i -> In i (map snd gnews ++ map snd nnews).
Proof.
  intros gnews nnews [[n|] k] i H; unfold in_news in H; cbn [fst snd] in H; apply in_or_app; [right|left];
    apply in_map_iff; eexists; split; try exact H; auto.
Qed.

Lemma pre_global : forall t t' gnews nnews t1 k, pre_facts t t' gnews nnews t1 ->
  match dget k (tp_vlans t), dget k (tp_vlans t') with
  | Some x, Some x' => vlan_filled gnews (k, x) (k, x') /\ vl_mode x' = vl_mode x
  | None, None => True
  | _, _ => False
  end.
Proof.
  intros t t' gnews nnews t1 k P.
  pose proof (Forall2_conj _ _ _ _ _ _ (pf_glob _ _ _ _ _ P) (pf_gmode _ _ _ _ _ P)) as F.
  apply (Forall2_dget _ _ _ k) in F; [|intros a b [H _]; exact (vlan_filled_key _ _ _ H)].
  destruct (dget k (tp_vlans t)), (dget k (tp_vlans t')); auto.
Qed.

Lemma pre_node : forall t t' gnews nnews t1 n, pre_facts t t' gnews nnews t1 ->
  match dget n (tp_nodes t), dget n (tp_nodes t') with
  | Some nd, Some nd' => node_rel t1 nnews (n, nd) (n, nd')
  | None, None => True
  | _, _ => False
  end.
Proof.
  intros t t' gnews nnews t1 n P. apply Forall2_nodes_dget. exact (pf_nodes _ _ _ _ _ P).
Qed.

(* a node VLAN before and after *)
Lemma pre_node_vlan : forall t t' gnews nnews t1 n k x', pre_facts t t' gnews nnews t1 ->
  vlan_at t' (Some n, k) = Some x' ->
  exists nd nd' x, dget n (tp_nodes t) = Some nd /\ dget n (tp_nodes t') = Some nd' /\ dget k (vn_vlans nd) = Some x
    /\ vn_mode nd' = vn_mode nd /\ vn_vxlan nd' = vn_vxlan nd
    /\ node_done t1 nnews n nd (k, x) (k, x').
Proof.
  intros t t' gnews nnews t1 n k x' P H. cbn [vlan_at] in H.
  pose proof (pre_node _ _ _ _ _ n P) as N.
  destruct (dget n (tp_nodes t')) as [nd'|] eqn:E'; [|discriminate].
  destruct (dget n (tp_nodes t)) as [nd|] eqn:E; [|contradiction].
  destruct N as [_ [N1 [N2 N3]]]. cbn [fst snd] in *.
  pose proof (Forall2_dget _ _ _ k (node_done_key _ _ _ _) N3) as D.
  rewrite H in D. destruct (dget k (vn_vlans nd)) as [x|] eqn:Ex; [|contradiction].
  exists nd, nd', x. auto 6.
Qed.

Lemma same_opt_Z : forall a b, same_opt Z.eqb a b = true <-> (forall i, a = Some i -> b = Some i).
Proof.
  intros [i|] [j|]; cbn [same_opt]; split; intros H; auto.
  - apply Z.eqb_eq in H. subst. auto.
  - apply Z.eqb_eq. specialize (H i eq_refl). inversion H; auto.
  - discriminate.
  - specialize (H i eq_refl). discriminate.
  - intros i Hi. discriminate.
Qed.

Lemma vni_eqb_eq : forall a b, vni_eqb a b = true <-> a = b.
Proof.
  intros [x|x] [y|y]; cbn [vni_eqb]; split; intros H; try discriminate.
  - apply eqb_prop in H. subst; auto.
  - inversion H. apply eqb_reflx.
  - apply Z.eqb_eq in H. subst; auto.
  - inversion H. apply Z.eqb_refl.
Qed.

Lemma same_opt_vni : forall a b, same_opt vni_eqb a b = true <-> (forall i, a = Some i -> b = Some i).
Proof.
  intros [i|] [j|]; cbn [same_opt]; split; intros H; auto.
  - apply vni_eqb_eq in H. subst. auto.
  - apply vni_eqb_eq. specialize (H i eq_refl). inversion H; auto.
  - discriminate.
  - specialize (H i eq_refl). discriminate.
  - intros i Hi. discriminate.
Qed.

Lemma flat_map_nil : forall A B (f : A -> list B) l, flat_map f l = [] -> forall a, In a l -> f a = [].
Proof.
  induction l as [|x l IH]; cbn [flat_map]; intros H a [].
  - subst. apply app_eq_nil in H. tauto.
  - apply app_eq_nil in H. apply IH; tauto.
Qed.

Lemma no_mismatch : forall t1 ns n nd k x g,
  [] = flat_map (fun kn : string * vnode => node_pre_errors t1 (fst kn) (snd kn)) ns ->
  dget n ns = Some nd -> dget k (vn_vlans nd) = Some x -> dget k (tp_vlans t1) = Some g ->
  (forall i, vl_id x = Some i -> vl_id g = Some i) /\ (forall i, vl_vni x = Some i -> vl_vni g = Some i).
Proof.
  intros t1 ns n nd k x g H Hn Hk Hg. symmetry in H.
  apply dget_In in Hn. apply dget_In in Hk.
  apply (flat_map_nil _ _ _ _ H (n, nd)) in Hn. cbn [fst snd] in Hn.
  unfold node_pre_errors in Hn.
  apply (flat_map_nil _ _ _ _ Hn (k, x)) in Hk. cbn [fst snd] in Hk.
  rewrite Hg in Hk. apply map_eq_nil in Hk. unfold validate_global_node_match in Hk.
  apply app_eq_nil in Hk. destruct Hk as [K1 K2].
  destruct (same_opt Z.eqb (vl_id x) (vl_id g)) eqn:E1; [|discriminate].
  destruct (same_opt vni_eqb (vl_vni x) (vl_vni g)) eqn:E2; [|discriminate].
  split; [now apply same_opt_Z | now apply same_opt_vni].
Qed.

Lemma owner_global : forall t k g o, dget k (tp_vlans t) = Some g -> owner t (o, k) = (None, k).
Proof.
  intros t k g o H. unfold owner. cbn [snd].
  assert (E : dmem k (tp_vlans t) = true) by (apply dmem_true; eapply dget_Some_key; eauto). now rewrite E.
Qed.

Lemma owner_local : forall t k o, dget k (tp_vlans t) = None -> owner t (o, k) = (o, k).
Proof.
  intros t k o H. unfold owner. cbn [snd].
  destruct (dmem k (tp_vlans t)) eqn:E; auto. apply dmem_true in E. apply dget_None in H. contradiction.
Qed.

(* the id of a slot comes from its owner *)
Lemma pre_slot : forall t t' gnews nnews t1 s x',
  pre_facts t t' gnews nnews t1 ->
  [] = flat_map (fun kn : string * vnode => node_pre_errors t1 (fst kn) (snd kn)) (tp_nodes t) ->
  vlan_at t' s = Some x' ->
  exists x0 i, vlan_at t (owner t s) = Some x0 /\ vl_id x' = Some i
    /\ match vl_id x0 with Some j => i = j | None => in_news gnews nnews (owner t s) i end.
Proof.
  intros t t' gnews nnews t1 [[n|] k] x' P E H.
  - destruct (pre_node_vlan _ _ _ _ _ _ _ _ P H) as [nd [nd' [x [D1 [D2 [D3 [_ [_ N]]]]]]]].
    destruct N as [_ [_ [_ [_ N]]]]. cbn [fst snd node_pre_vlan] in N.
    pose proof (pf_t1 _ _ _ _ _ P) as T1.
    assert (V1 : tp_vlans t1 = tp_vlans t') by (rewrite T1; reflexivity).
    rewrite V1 in N. pose proof (pre_global _ _ _ _ _ k P) as G.
    destruct (dget k (tp_vlans t)) as [g|] eqn:Eg.
    + destruct (dget k (tp_vlans t')) as [g'|] eqn:Eg'; [|contradiction].
      rewrite (owner_global _ _ _ (Some n) Eg). cbn [vlan_at].
      destruct G as [[_ [_ [_ G]]] _]. cbn [fst snd] in G.
      assert (Eg1 : dget k (tp_vlans t1) = Some g') by (rewrite V1; exact Eg').
      destruct (no_mismatch _ _ _ _ _ _ _ E D1 D3 Eg1) as [M _].
      assert (Q : exists i, vl_id g' = Some i /\ vl_id x' = Some i).
      { assert (Q : exists i, vl_id g' = Some i).
        { destruct (vl_id g); [eauto|]. destruct G as [i [G _]]. eauto. }
        destruct Q as [i Q]. exists i. split; auto. cbn [fst snd merge_vlan vl_id set_node_vlan_mode] in N.
        destruct (vl_id x) as [j|] eqn:Ej; cbn [over] in N.
        - rewrite N. rewrite <- Q. symmetry. apply M. auto.
        - rewrite Q in N. auto. }
      destruct Q as [i [Q1 Q2]]. exists g, i. split; auto. split; auto.
      destruct (vl_id g) as [j|].
      * rewrite Q1 in G. inversion G; auto.
      * destruct G as [i' [G1 G2]]. rewrite Q1 in G1. inversion G1; subst i'. exact G2.
    + destruct (dget k (tp_vlans t')) as [g'|] eqn:Eg'; [contradiction|].
      rewrite (owner_local _ _ (Some n) Eg). cbn [vlan_at]. rewrite D1, D3.
      cbn [fst snd set_node_vlan_mode vl_id] in N. destruct (vl_id x) as [j|] eqn:Ej.
      * exists x, j. rewrite Ej. auto.
      * destruct N as [i [N1 N2]]. exists x, i. rewrite Ej. auto.
  - cbn [vlan_at] in *. pose proof (pre_global _ _ _ _ _ k P) as G. rewrite H in G.
    destruct (dget k (tp_vlans t)) as [g|] eqn:Eg; [|contradiction].
    rewrite (owner_global _ _ _ None Eg). cbn [vlan_at]. rewrite Eg.
    destruct G as [[_ [_ [_ G]]] _]. cbn [fst snd] in G.
    destruct (vl_id g) as [j|] eqn:Ej.
    + exists g, j. rewrite Ej. auto.
    + destruct G as [i [G1 G2]]. exists g, i. rewrite Ej. auto.
Qed.

Lemma pre_domain : forall t t' gnews nnews t1 s, pre_facts t t' gnews nnews t1 ->
  (vlan_at t s = None <-> vlan_at t' s = None).
Proof.
  intros t t' gnews nnews t1 [[n|] k] P; cbn [vlan_at].
  - pose proof (pre_node _ _ _ _ _ n P) as N.
    destruct (dget n (tp_nodes t)) as [nd|], (dget n (tp_nodes t')) as [nd'|]; try contradiction; [|tauto].
    destruct N as [_ [_ [_ N]]]. cbn [fst snd] in N.
    pose proof (Forall2_dget _ _ _ k (node_done_key _ _ _ _) N) as D.
    destruct (dget k (vn_vlans nd)), (dget k (vn_vlans nd')); try contradiction; split; congruence.
  - pose proof (pre_global _ _ _ _ _ k P) as G.
    destruct (dget k (tp_vlans t)), (dget k (tp_vlans t')); try contradiction; split; congruence.
Qed.

(* C33: every VLAN has an id; a VLAN without one gets an unused id in the configured range,
   different from every static VLAN id and from the id of every other VLAN *)
Theorem vlan_ids_unique : forall t t',
  vlan_pre_transform t = Ok ([], t') -> tp_start t <= 4094 ->
  (forall s, vlan_at t s = None <-> vlan_at t' s = None)
  /\ forall s x', vlan_at t' s = Some x' ->
     exists x0 i, vlan_at t (owner t s) = Some x0 /\ vl_id x' = Some i
       /\ match vl_id x0 with
          | Some j => i = j
          | None => tp_start t <= i <= 4094
                    /\ (forall s2 x2, vlan_at t s2 = Some x2 -> vl_id x2 <> Some i)
                    /\ (forall s2 x2, vlan_at t' s2 = Some x2 -> vl_id x2 = Some i -> owner t s2 = owner t s)
          end.
Proof.
  intros t t' H S. destruct (vlan_pre_facts _ _ _ H S) as [gnews [nnews [t1 [P E]]]].
  split; [intros s; eapply pre_domain; eauto|].
  intros s x' Hs. destruct (pre_slot _ _ _ _ _ _ _ P E Hs) as [x0 [i [H1 [H2 H3]]]].
  exists x0, i. split; auto. split; auto. destruct (vl_id x0) as [j|] eqn:E0; auto.
  split; [apply (pf_range _ _ _ _ _ P), in_news_in with (s := owner t s); auto|].
  pose proof (pf_fresh _ _ _ _ _ P i (in_news_in _ _ _ _ H3)) as Fr. split.
  - intros s2 x2 K1 K2. apply Fr. eapply static_used; eauto.
  - intros s2 x2 K1 K2. destruct (pre_slot _ _ _ _ _ _ _ P E K1) as [y0 [i2 [L1 [L2 L3]]]].
    rewrite K2 in L2. inversion L2; subst i2. destruct (vl_id y0) as [j|] eqn:Ey.
    + subst j. exfalso. apply Fr. eapply static_used; eauto.
    + eapply in_news_inj; eauto. exact (pf_nodup _ _ _ _ _ P).
Qed.

(* C33: an id set on a node VLAN that is also a global VLAN with another id, or without an id,
   is reported *)
Theorem vlan_id_mismatch_reported : forall t errs t' n nd k x g i,
  vlan_pre_transform t = Ok (errs, t') -> tp_start t <= 4094 ->
  In (n, nd) (tp_nodes t) -> In (k, x) (vn_vlans nd) -> dget k (tp_vlans t) = Some g ->
  vl_id x = Some i -> vl_id g <> Some i ->
  In (n, k, "id"%string) errs.
Proof.
  intros t errs t' n nd k x g i H S Hn Hk Hg Hx Hne.
  destruct (vlan_pre_facts _ _ _ H S) as [gnews [nnews [t1 [P E]]]].
  subst errs. apply in_flat_map. exists (n, nd). split; auto. cbn [fst snd].
  unfold node_pre_errors. apply in_flat_map. exists (k, x). split; auto. cbn [fst snd].
  assert (V1 : tp_vlans t1 = tp_vlans t') by (rewrite (pf_t1 _ _ _ _ _ P); reflexivity).
  rewrite V1. pose proof (pre_global _ _ _ _ _ k P) as G. rewrite Hg in G.
  destruct (dget k (tp_vlans t')) as [g'|]; [|contradiction].
  destruct G as [[_ [_ [_ G]]] _]. cbn [fst snd] in G.
  apply in_map_iff. exists "id"%string. split; auto. unfold validate_global_node_match.
  apply in_or_app. left. rewrite Hx. cbn [same_opt].
  assert (U : In i (iv_used (populate_vlan_id_set t))).
  { apply populate_used. exists (Some n, k), x. split; auto. right. exists n, nd. auto. }
  assert (Q : exists i', vl_id g' = Some i' /\ i' <> i).
  { destruct (vl_id g) as [j|].
    - exists j. split; auto. congruence.
    - destruct G as [i' [G1 G2]]. exists i'. split; auto. intros ->.
      apply (pf_fresh _ _ _ _ _ P i); auto. apply (in_news_in gnews nnews (None, k)). exact G2. }
  destruct Q as [i' [Q1 Q2]]. rewrite Q1.
  destruct (Z.eqb_spec i i'); [congruence|]. left; auto.
Qed.

(* ------------------------------------------------------------------ *)
(* VNI assignment                                                       *)

Definition vni_auto (x : vlan) : Prop := vl_vni x = None \/ vl_vni x = Some (VniB true).

Definition vni_step (start : Z) (globals : option (dict vlan)) (used : list Z) (news : list (string * Z)) (k : string) (x x' : vlan) : Prop :=
  vl_id x' = vl_id x /\ vl_mode x' = vl_mode x /\ vl_merged x' = vl_merged x
  /\ (vl_vni x' = vl_vni x
      \/ exists n i, vl_vni x' = Some (VniN n) /\ In (k, n) news /\ vni_auto x
           /\ (match globals with Some gd => dget k gd | None => None end) = None
           /\ vl_id x = Some i
           /\ (n = start + i \/ start <= n <= 16777215 /\ In (start + i) used)).

Definition vni_rel (start : Z) (globals : option (dict vlan)) (used : list Z) (news : list (string * Z)) (d d' : dict vlan) : Prop :=
  forall k, match dget k d, dget k d' with
            | Some x, Some x' => vni_step start globals used news k x x'
            | None, None => True
            | _, _ => False
            end.

Lemma vni_step_refl : forall start gl used news k x, vni_step start gl used news k x x.
Proof. intros. split; [|split; [|split]]; auto. Qed.

Lemma vni_rel_refl : forall start gl used news d, vni_rel start gl used news d d.
Proof. intros start gl used news d k. destruct (dget k d); auto. apply vni_step_refl. Qed.

Lemma vni_step_mono : forall start gl u1 u2 n1 n2 k x x',
  (forall i, In i u1 -> In i u2) -> (forall z, In z n1 -> In z n2) ->
  vni_step start gl u1 n1 k x x' -> vni_step start gl u2 n2 k x x'.
Proof.
  intros start gl u1 u2 n1 n2 k x x' I J [H1 [H2 [H3 H4]]]. split; [|split; [|split]]; auto.
  destruct H4 as [H4|[n [i [A [B [C [D [E F]]]]]]]]; auto.
  right. exists n, i. repeat (split; [auto; fail|]). destruct F as [F|[F1 F2]]; auto.
Qed.

Lemma counter_extend : forall s m l v, counter_inv s m v -> counter_inv s m (extend_id_set l v).
Proof.
  intros s m l v [H1 [n [H2 [H3 H4]]]]. split; auto. exists n. split; auto. split; auto.
  intros y Hy. cbn. apply in_or_app. auto.
Qed.

Lemma auto_vni_ok : forall start x v x' v', auto_vni start x v = Ok (x', v') -> counter_inv start 16777215 v ->
  exists n i, x' = set_vni x n /\ grown v v' [n] /\ vl_id x = Some i /\ counter_inv start 16777215 v'
    /\ (n = start + i \/ start <= n <= 16777215 /\ In (start + i) (iv_used v)).
Proof.
  intros start x v x' v' H C. unfold auto_vni in H. destruct (vl_id x) as [i|]; [|discriminate].
  unfold is_id_used in H. destruct (memZ (start + i) (iv_used v)) eqn:M.
  - destruct (get_next_id v) as [[n v1]|e] eqn:N; [|discriminate]. inversion H; subst.
    destruct (counter_next _ _ _ _ _ C N) as [C1 R].
    exists n, i. split; auto. split; [apply grown_next; auto|]. split; auto. split; auto.
    right. split; auto. now apply memZ_true.
  - inversion H; subst. exists (start + i), i. split; auto. split.
    + split; [|split].
      * intros j. cbn. tauto.
      * constructor; [intros []|constructor].
      * intros j [<-|[]]. now apply memZ_false.
    + split; auto. split; [apply counter_extend; auto|]. auto.
Qed.

Lemma assign_vni_spec : forall start gl names d v errs d' v',
  assign_vni start gl names d v = Ok (errs, d', v') -> counter_inv start 16777215 v ->
  exists news, grown v v' (map snd news)
    /\ vni_rel start gl (iv_used v') news d d'
    /\ (forall k n, In (k, n) news -> (exists x', dget k d' = Some x' /\ vl_vni x' = Some (VniN n))
          /\ (match gl with Some gd => dget k gd | None => None end) = None)
    /\ counter_inv start 16777215 v'
    /\ (forall k x', In k names -> dget k d' = Some x' ->
          (match gl with Some gd => dget k gd | None => None end) = None -> ~ vni_auto x').
Proof.
  intros start gl names. induction names as [|k r IH]; intros d v errs d' v' H C; cbn [assign_vni] in H.
  - inversion H; subst. exists []. split; [apply grown_nil|]. split; [apply vni_rel_refl|].
    split; [intros k n []|]. split; [auto|]. intros k x' [].
  - destruct (dget k d) as [x|] eqn:Ek.
    2:{ destruct (IH _ _ _ _ _ H C) as [news [A1 [A2 [A3 [A4 A5]]]]]. exists news.
        split; [auto|]. split; [auto|]. split; [auto|]. split; [auto|].
        intros k' x' [<-|Hin] K1 K2; [|eauto]. specialize (A2 k). rewrite Ek, K1 in A2. contradiction. }
    destruct (match gl with Some gd => dget k gd | None => None end) as [g|] eqn:Eg.
    { destruct (assign_vni start gl r d v) as [[[errs1 d1] v1]|e] eqn:R; [|discriminate].
      inversion H; subst d1 v1. destruct (IH _ _ _ _ _ R C) as [news [A1 [A2 [A3 [A4 A5]]]]]. exists news.
      split; [auto|]. split; [auto|]. split; [auto|]. split; [auto|].
      intros k' x' [<-|Hin] K1 K2; [|eauto]. rewrite Eg in K2. discriminate. }
    assert (AUTO : vni_auto x ->
       match auto_vni start x v with Err e => Err e | Ok (x', v1) => assign_vni start gl r (dset k x' d) v1 end
         = Ok (errs, d', v') ->
       exists news, grown v v' (map snd news)
         /\ vni_rel start gl (iv_used v') news d d'
         /\ (forall k n, In (k, n) news -> (exists x', dget k d' = Some x' /\ vl_vni x' = Some (VniN n))
               /\ (match gl with Some gd => dget k gd | None => None end) = None)
         /\ counter_inv start 16777215 v'
         /\ (forall k0 x', In k0 (k :: r) -> dget k0 d' = Some x' ->
               (match gl with Some gd => dget k0 gd | None => None end) = None -> ~ vni_auto x')).
    { clear H. intros AU H. destruct (auto_vni start x v) as [[x1 v1]|e] eqn:A; [|discriminate].
      destruct (auto_vni_ok _ _ _ _ _ A C) as [n [i [-> [G1 [Ei [C1 N1]]]]]].
      destruct (IH _ _ _ _ _ H C1) as [news [G2 [A2 [A3 [A4 A5]]]]].
      assert (Kd : exists x', dget k d' = Some x' /\ vl_vni x' = Some (VniN n)
                     /\ vl_id x' = vl_id x /\ vl_mode x' = vl_mode x /\ vl_merged x' = vl_merged x).
      { specialize (A2 k). rewrite dget_dset_same in A2.
        destruct (dget k d') as [x'|]; [|contradiction]. exists x'. split; auto.
        destruct A2 as [B1 [B2 [B3 B4]]]. split; auto.
        destruct B4 as [B4|[n' [i' [B4 [B5 [[B6|B6] _]]]]]]; [auto| |]; discriminate. }
      destruct Kd as [x' [K1 [K2 [K3 [K4 K5]]]]].
      exists ((k, n) :: news). split; [|split; [|split; [|split]]].
      - cbn [map snd]. change (n :: map snd news) with ([n] ++ map snd news). eapply grown_trans; eauto.
      - intros k0. destruct (String.eqb_spec k0 k) as [->|Hne].
        + rewrite Ek, K1. split; [|split; [|split]]; auto. right. exists n, i.
          split; auto. split; [left; auto|]. split; auto. split; auto. split; auto.
          destruct N1 as [N1|[N1 N2]]; auto. right. split; auto.
          eapply grown_mono; [exact G2|]. eapply grown_mono; [exact G1|]. auto.
        + specialize (A2 k0). rewrite dget_dset_other in A2 by auto.
          destruct (dget k0 d), (dget k0 d'); auto. eapply vni_step_mono; [| |exact A2]; auto.
          intros z Hz. right. auto.
      - intros k0 n0 [E|Hin]; [inversion E; subst; eauto | eauto].
      - auto.
      - intros k0 y [<-|Hin] Y1 Y2; [|eauto]. rewrite K1 in Y1. inversion Y1; subst y.
        intros [Q|Q]; rewrite K2 in Q; discriminate. }
    destruct (vl_vni x) as [[[|]|n]|] eqn:Ev.
    + apply AUTO; auto. right. auto.
    + destruct (IH _ _ _ _ _ H C) as [news [A1 [A2 [A3 [A4 A5]]]]]. exists news.
      split; [auto|]. split; [auto|]. split; [auto|]. split; [auto|].
      intros k' x' [<-|Hin] K1 K2; [|eauto]. specialize (A2 k). rewrite Ek, K1 in A2.
      destruct A2 as [_ [_ [_ [A2|[n [i [_ [_ [[B|B] _]]]]]]]]].
      * intros [Q|Q]; rewrite A2, Ev in Q; discriminate.
      * rewrite Ev in B. discriminate.
      * rewrite Ev in B. discriminate.
    + destruct (assign_vni start gl r d v) as [[[errs1 d1] v1]|e] eqn:R; [|discriminate].
      inversion H; subst d1 v1. destruct (IH _ _ _ _ _ R C) as [news [A1 [A2 [A3 [A4 A5]]]]]. exists news.
      split; [auto|]. split; [auto|]. split; [auto|]. split; [auto|].
      intros k' x' [<-|Hin] K1 K2; [|eauto]. specialize (A2 k). rewrite Ek, K1 in A2.
      destruct A2 as [_ [_ [_ [A2|[n' [i [_ [_ [[B|B] _]]]]]]]]].
      * intros [Q|Q]; rewrite A2, Ev in Q; discriminate.
      * rewrite Ev in B. discriminate.
      * rewrite Ev in B. discriminate.
    + apply AUTO; auto. left. auto.
Qed.

(* news of one node, out of the list for all nodes *)
Definition node_news (name : string) (news : list (string * string * Z)) : list (string * Z) :=
  flat_map (fun z : string * string * Z =>
    if String.eqb (fst (fst z)) name then [(snd (fst z), snd z)] else []) news.

Lemma node_news_In : forall name news k n, In (k, n) (node_news name news) <-> In (name, k, n) news.
Proof.
  intros name news k n. unfold node_news. rewrite in_flat_map. split.
  - intros [[[a b] c] [H1 H2]]. cbn [fst snd] in H2. destruct (String.eqb_spec a name); [|destruct H2].
    destruct H2 as [E|[]]. inversion E; subst. auto.
  - intros H. exists (name, k, n). split; auto. cbn [fst snd]. rewrite String.eqb_refl. left; auto.
Qed.

Definition vnode_rel (t : vtopo) (used : list Z) (news : list (string * string * Z)) (a b : string * vnode) : Prop :=
  fst b = fst a /\ vn_mode (snd b) = vn_mode (snd a) /\ vn_vxlan (snd b) = vn_vxlan (snd a)
  /\ vni_rel (tp_start_vni t) (Some (tp_vlans t)) used (node_news (fst a) news) (vn_vlans (snd a)) (vn_vlans (snd b))
  /\ (forall k x', In k (vxlan_list (vn_vxlan (snd a)) (vn_vlans (snd a)) (tp_vxlan t)) ->
        dget k (vn_vlans (snd b)) = Some x' -> dget k (tp_vlans t) = None -> ~ vni_auto x').

Lemma vni_rel_mono : forall start gl u1 u2 n1 n2 d d',
  (forall i, In i u1 -> In i u2) -> (forall z, In z n1 -> In z n2) ->
  vni_rel start gl u1 n1 d d' -> vni_rel start gl u2 n2 d d'.
Proof.
  intros start gl u1 u2 n1 n2 d d' I J H k. specialize (H k).
  destruct (dget k d), (dget k d'); auto. eapply vni_step_mono; eauto.
Qed.

Lemma vnode_rel_mono : forall t u1 u2 n1 n2 a b,
  (forall i, In i u1 -> In i u2) -> (forall z, In z n1 -> In z n2) ->
  vnode_rel t u1 n1 a b -> vnode_rel t u2 n2 a b.
Proof.
  intros t u1 u2 n1 n2 a b I J [H1 [H2 [H3 [H4 H5]]]]. split; [auto|]. split; [auto|]. split; [auto|]. split; [|exact H5].
  eapply vni_rel_mono; [exact I| |exact H4].
  intros [k n] Hz. apply node_news_In. apply J. now apply node_news_In.
Qed.

Lemma nodes_vni_spec : forall t ns v errs ns' v',
  nodes_vni t ns v = Ok (errs, ns', v') -> counter_inv (tp_start_vni t) 16777215 v ->
  NoDup (dkeys ns) ->
  exists news, grown v v' (map snd news)
    /\ Forall2 (vnode_rel t (iv_used v') news) ns ns'
    /\ (forall name k n, In (name, k, n) news ->
          dget k (tp_vlans t) = None
          /\ exists nd' x', dget name ns' = Some nd' /\ dget k (vn_vlans nd') = Some x' /\ vl_vni x' = Some (VniN n)).
Proof.
  induction ns as [|[name nd] r IH]; intros v errs ns' v' H C ND; cbn [nodes_vni] in H.
  - inversion H; subst. exists []. split; [apply grown_nil|]. split; [constructor|]. intros name k n [].
  - destruct (assign_vni _ _ _ (vn_vlans nd) v) as [[[errs1 d] v1]|e] eqn:A; [|discriminate].
    destruct (nodes_vni t r v1) as [[[errs2 ns1] v2]|e] eqn:R; [|discriminate].
    inversion H; subst errs ns' v2. cbn [dkeys map fst] in ND. inversion ND as [|? ? ND1 ND2]; subst.
    destruct (assign_vni_spec _ _ _ _ _ _ _ _ A C) as [n1 [G1 [R1 [P1 [C1 L1]]]]].
    destruct (IH _ _ _ _ R C1 ND2) as [n2 [G2 [F2 P2]]].
    assert (KS : dkeys ns1 = dkeys r).
    { clear - F2. induction F2 as [|a b d d' H F IH]; auto. cbn [dkeys map] in *. destruct H as [-> _]. f_equal. exact IH. }
    exists (map (fun ki => (name, fst ki, snd ki)) n1 ++ n2). split; [|split].
    + rewrite map_app, map_map. cbn [snd]. eapply grown_trans; [|exact G2].
      rewrite (map_ext _ snd) by reflexivity. exact G1.
    + constructor.
      * split; [reflexivity|]. split; [reflexivity|]. split; [reflexivity|]. cbn [fst snd vn_vlans vn_vxlan].
        split; [|exact L1].
        eapply vni_rel_mono; [| |exact R1].
        { intros i Hi. eapply grown_mono; eauto. }
        { intros [k n] Hz. apply node_news_In. apply in_or_app. left. apply in_map_iff. exists (k, n). auto. }
      * eapply Forall2_mono; [|exact F2]. intros a b. apply vnode_rel_mono; auto.
        intros z Hz. apply in_or_app. auto.
    + intros nm k n Hz. apply in_app_or in Hz. destruct Hz as [Hz|Hz].
      * apply in_map_iff in Hz. destruct Hz as [[k' n'] [E Hz]]. inversion E; subst.
        destruct (P1 _ _ Hz) as [[x' [Q1 Q2]] Q3]. cbn [fst snd] in *. split; [exact Q3|].
        exists (mk_vnode d (vn_mode nd) (vn_vxlan nd)), x'. cbn [dget]. rewrite String.eqb_refl. auto.
      * destruct (P2 _ _ _ Hz) as [Q0 [nd' [x' [Q1 [Q2 Q3]]]]]. split; [exact Q0|]. exists nd', x'. split; auto.
        cbn [dget]. destruct (String.eqb_spec nm name) as [->|]; auto.
        apply dget_Some_key in Q1. rewrite KS in Q1. contradiction.
Qed.

Lemma Forall2_vnodes_dget : forall t used news ns ns' k,
  Forall2 (vnode_rel t used news) ns ns' ->
  match dget k ns, dget k ns' with
  | Some n, Some n' => vnode_rel t used news (k, n) (k, n')
  | None, None => True
  | _, _ => False
  end.
Proof.
  intros t used news ns ns' k F. induction F as [|[a x] [b y] d d' H F IH]; cbn [dget]; auto.
  assert (E : b = a) by (destruct H as [H _]; exact H). subst b.
  destruct (String.eqb k a) eqn:Ek; auto.
  apply String.eqb_eq in Ek. subst. auto.
Qed.

Lemma register_counter : forall t, tp_start_vni t <= 16777215 ->
  counter_inv (tp_start_vni t) 16777215 (register_static_vni t).
Proof.
  intros t H. unfold register_static_vni.
  match goal with |- counter_inv _ _ (extend_nodes ?f ?ns ?v) => destruct (extend_nodes_counter f ns v) as [E1 E2] end.
  split; [rewrite E2; reflexivity|]. exists (tp_start_vni t). rewrite E1. split; [reflexivity|]. split; [lia|].
  intros y Hy. lia.
Qed.

Lemma register_used : forall t i, In i (iv_used (register_static_vni t)) <->
  (exists k x, In (k, x) (tp_vlans t) /\ vl_vni x = Some (VniN i))
  \/ (exists n nd k x, In (n, nd) (tp_nodes t) /\ In (k, x) (vn_vlans nd) /\ vl_vni x = Some (VniN i)).
Proof.
  intros t i. unfold register_static_vni. rewrite extend_nodes_used.
  cbn [set_id_counter extend_id_set create_id_set iv_used]. rewrite app_nil_r, vni_set_In. split.
  - intros [H|[n [nd [H1 H2]]]]; auto. apply vni_set_In in H2. destruct H2 as [k [x [H2 H3]]].
    right. exists n, nd, k, x. auto.
  - intros [H|[n [nd [k [x [H1 [H2 H3]]]]]]]; auto. right. exists n, nd. split; auto. apply vni_set_In. eauto.
Qed.

Lemma static_vni_used : forall t s x i, vlan_at t s = Some x -> vl_vni x = Some (VniN i) ->
  In i (iv_used (register_static_vni t)).
Proof.
  intros t [[n|] k] x i H1 H2; apply register_used; cbn [vlan_at] in H1.
  - destruct (dget n (tp_nodes t)) as [nd|] eqn:E; [|discriminate].
    right. exists n, nd, k, x. split; [apply dget_In; auto|]. split; [apply dget_In; auto|auto].
  - left. exists k, x. split; [apply dget_In; auto|auto].
Qed.

(* everything known about vxlan_post_node_transform *)
Record vx_facts (v0 : idvar) (t t2 : vtopo) (gnews : list (string * Z)) (nnews : list (string * string * Z)) (vf : idvar) : Prop := {
  xf_grown : grown v0 vf (map snd gnews ++ map snd nnews);
  xf_glob : vni_rel (tp_start_vni t) None (iv_used vf) gnews (tp_vlans t) (tp_vlans t2);
  xf_nodes : Forall2 (vnode_rel t2 (iv_used vf) nnews) (tp_nodes t) (tp_nodes t2);
  xf_start : tp_start_vni t2 = tp_start_vni t;
  xf_mode : tp_mode t2 = tp_mode t;
  xf_gset : forall k n, In (k, n) gnews -> exists x, vlan_at t2 (None, k) = Some x /\ vl_vni x = Some (VniN n);
  xf_nset : forall m k n, In (m, k, n) nnews -> dget k (tp_vlans t2) = None /\ exists x, vlan_at t2 (Some m, k) = Some x /\ vl_vni x = Some (VniN n);
  xf_list : forall k x, In k (vxlan_list (tp_vxlan t) (tp_vlans t) None) -> dget k (tp_vlans t2) = Some x -> ~ vni_auto x
}.

Lemma vx_post_facts : forall v0 t errs t2, vxlan_post_node_transform v0 t = Ok (errs, t2) ->
  counter_inv (tp_start_vni t) 16777215 v0 -> NoDup (dkeys (tp_nodes t)) ->
  exists gnews nnews vf, vx_facts v0 t t2 gnews nnews vf.
Proof.
  intros v0 t errs t2 H C ND. unfold vxlan_post_node_transform in H.
  destruct (assign_vni (tp_start_vni t) None _ (tp_vlans t) v0) as [[[errs1 gd] v1]|e] eqn:A; [|discriminate].
  destruct (assign_vni_spec _ _ _ _ _ _ _ _ A C) as [gnews [G1 [R1 [P1 [C1 L1]]]]].
  cbn [tp_nodes] in H.
  match type of H with context [nodes_vni ?t1 _ _] => set (T1 := t1) in * end.
  destruct (nodes_vni T1 (tp_nodes t) v1) as [[[errs2 ns2] v2]|e] eqn:R; [|discriminate].
  inversion H; subst errs t2. clear H.
  assert (C1' : counter_inv (tp_start_vni T1) 16777215 v1) by exact C1.
  destruct (nodes_vni_spec _ _ _ _ _ _ R C1' ND) as [nnews [G2 [F2 P2]]].
  exists gnews, nnews, v2. constructor.
  - eapply grown_trans; eauto.
  - cbn [with_vlans tp_vlans]. eapply vni_rel_mono; [| |exact R1]; auto. intros i Hi. eapply grown_mono; eauto.
  - exact F2.
  - reflexivity.
  - reflexivity.
  - intros k n Hk. cbn [vlan_at with_vlans tp_vlans]. apply P1. exact Hk.
  - intros m k n Hm. destruct (P2 _ _ _ Hm) as [Q0 [nd' [x' [Q1 [Q2 Q3]]]]].
    split; [exact Q0|]. exists x'. cbn [vlan_at with_vlans tp_nodes]. rewrite Q1. auto.
  - cbn [with_vlans tp_vlans]. intros k x Hk Hx. eapply L1; eauto.
Qed.

(* populate_node_vlan on the data of one VLAN *)
Definition pop1 (t : vtopo) (mode : option string) (k : string) (x : vlan) : vlan :=
  populate_node_vlan t (mk_vnode [(k, x)] mode None) k.

Lemma pop1_eq : forall t n k x, dget k (vn_vlans n) = Some x -> populate_node_vlan t n k = pop1 t (vn_mode n) k x.
Proof.
  intros t n k x H. unfold pop1, populate_node_vlan. rewrite H. cbn [vn_vlans dget vn_mode]. now rewrite String.eqb_refl.
Qed.

Lemma pop1_merged : forall t m k x, vl_merged (pop1 t m k x) = true.
Proof.
  intros t m k x. unfold pop1, populate_node_vlan. cbn [vn_vlans dget]. rewrite String.eqb_refl.
  destruct (vl_merged x) eqn:E; auto.
Qed.

Lemma pop1_idem : forall t m k x, pop1 t m k (pop1 t m k x) = pop1 t m k x.
Proof.
  intros t m k x. pose proof (pop1_merged t m k x) as E. remember (pop1 t m k x) as y eqn:Ey.
  unfold pop1, populate_node_vlan. cbn [vn_vlans dget]. rewrite String.eqb_refl. now rewrite E.
Qed.

Lemma populate_fold : forall t m vx ks d k x,
  dget k d = Some x -> (forall k', In k' ks -> In k' (dkeys d)) ->
  dget k (fold_left (fun d k => dset k (populate_node_vlan t (mk_vnode d m vx) k) d) ks d)
  = Some (if memS k ks then pop1 t m k x else x).
Proof.
  intros t m vx ks. induction ks as [|k0 r IH]; intros d k x H I; cbn [fold_left]; auto.
  assert (I0 : In k0 (dkeys d)) by (apply I; left; auto).
  destruct (dget k0 d) as [x0|] eqn:E0; [|apply dget_None in E0; contradiction].
  rewrite (pop1_eq t (mk_vnode d m vx) k0 x0 E0). cbn [vn_mode].
  assert (I' : forall k', In k' r -> In k' (dkeys (dset k0 (pop1 t m k0 x0) d))).
  { intros k' Hk'. rewrite dkeys_dset_mem by auto. apply I. right; auto. }
  destruct (String.eqb_spec k k0) as [->|Hne].
  - rewrite E0 in H. inversion H; subst x0.
    rewrite (IH _ k0 (pop1 t m k0 x)); [|apply dget_dset_same|exact I'].
    unfold memS at 2. cbn [existsb]. rewrite String.eqb_refl. cbn [orb].
    destruct (memS k0 r); [rewrite pop1_idem|]; auto.
  - rewrite (IH _ k x); [|rewrite dget_dset_other; auto|exact I'].
    unfold memS at 2. cbn [existsb]. destruct (String.eqb_spec k k0); [contradiction|]. reflexivity.
Qed.

Lemma populate_data : forall t n k, dget k (vn_vlans (populate_node_vlan_data t n))
  = match dget k (vn_vlans n) with Some x => Some (pop1 t (vn_mode n) k x) | None => None end.
Proof.
  intros t n k. unfold populate_node_vlan_data. cbn [vn_vlans].
  destruct (dget k (vn_vlans n)) as [x|] eqn:E.
  - rewrite (populate_fold t _ _ _ _ k x); auto.
    assert (M : memS k (dkeys (vn_vlans n)) = true) by (apply memS_true; eapply dget_Some_key; eauto). now rewrite M.
  - assert (K : forall ks d, (forall k', In k' ks -> In k' (dkeys d)) ->
        dkeys (fold_left (fun d k => dset k (populate_node_vlan t (mk_vnode d (vn_mode n) (vn_vxlan n)) k) d) ks d) = dkeys d).
    { induction ks as [|k0 r IH]; intros d I; cbn [fold_left]; auto.
      assert (E1 : forall y, dkeys (dset k0 y d) = dkeys d) by (intros y; apply dkeys_dset_mem, I; left; auto).
      rewrite IH; [apply E1|]. intros k' Hk'. rewrite E1. apply I. right; auto. }
    apply dget_None. rewrite K by auto. now apply dget_None.
Qed.

Lemma dget_map : forall A B (f : A -> B) k (d : dict A),
  dget k (map (fun kn => (fst kn, f (snd kn))) d) = match dget k d with Some x => Some (f x) | None => None end.
Proof.
  induction d as [|[a x] d IH]; cbn [map dget fst snd]; auto. destruct (String.eqb k a); auto.
Qed.

Lemma populate_all_at : forall t s, vlan_at (populate_all t) s =
  match s with
  | (None, k) => vlan_at t (None, k)
  | (Some n, k) =>
      match dget n (tp_nodes t) with
      | Some nd => match dget k (vn_vlans nd) with Some x => Some (pop1 t (vn_mode nd) k x) | None => None end
      | None => None
      end
  end.
Proof.
  intros t [[n|] k]; cbn [vlan_at populate_all with_vlans tp_vlans tp_nodes]; auto.
  rewrite dget_map. destruct (dget n (tp_nodes t)) as [nd|]; auto. apply populate_data.
Qed.

Lemma pop1_vni : forall t m k x, vl_merged x = false ->
  vl_vni (pop1 t m k x) = match dget k (tp_vlans t) with Some g => over (vl_vni x) (vl_vni g) | None => vl_vni x end
  /\ vl_id (pop1 t m k x) = match dget k (tp_vlans t) with Some g => over (vl_id x) (vl_id g) | None => vl_id x end.
Proof.
  intros t m k x H. unfold pop1, populate_node_vlan. cbn [vn_vlans dget]. rewrite String.eqb_refl, H.
  cbn [merge_vlan vl_vni vl_id set_node_vlan_mode]. destruct (dget k (tp_vlans t)); auto.
  cbn [no_vlan vl_vni vl_id]. destruct (vl_vni x), (vl_id x); auto.
Qed.

Lemma vlan_transform_facts : forall t t3, vlan_transform t = Ok ([], t3) -> wf_topo t ->
  tp_start t <= 4094 -> tp_start_vni t <= 16777215 ->
  exists t' t2 pg pn t1 gnews nnews vf,
    vlan_pre_transform t = Ok ([], t')
    /\ pre_facts t t' pg pn t1
    /\ [] = flat_map (fun kn : string * vnode => node_pre_errors t1 (fst kn) (snd kn)) (tp_nodes t)
    /\ vx_facts (register_static_vni t) t' t2 gnews nnews vf /\ t3 = populate_all t2.
Proof.
  intros t t3 H [_ [W _]] S1 S2. unfold vlan_transform in H.
  destruct (vlan_pre_transform t) as [[errs t']|e] eqn:P; [|discriminate].
  destruct (vxlan_post_node_transform (register_static_vni t) t') as [[errs2 t2]|e] eqn:X; [|discriminate].
  inversion H as [[E1 E2]]. apply app_eq_nil in E1. destruct E1; subst errs errs2.
  destruct (vlan_pre_facts _ _ _ P S1) as [pg [pn [t1 [PF E]]]].
  assert (Sv : tp_start_vni t' = tp_start_vni t) by (rewrite (pf_t' _ _ _ _ _ PF); reflexivity).
  assert (Kn : dkeys (tp_nodes t') = dkeys (tp_nodes t)) by exact (Forall2_nodes_keys _ _ _ _ (pf_nodes _ _ _ _ _ PF)).
  destruct (vx_post_facts _ _ _ _ X) as [gnews [nnews [vf XF]]].
  - rewrite Sv. apply register_counter; auto.
  - rewrite Kn. auto.
  - exists t', t2, pg, pn, t1, gnews, nnews, vf. auto.
Qed.

(* what happens to a VLAN with and without a global definition *)
Lemma slot_stages : forall t t' t2 pg pn t1 v0 gnews nnews vf m k x3,
  wf_topo t -> pre_facts t t' pg pn t1 ->
  [] = flat_map (fun kn : string * vnode => node_pre_errors t1 (fst kn) (snd kn)) (tp_nodes t) ->
  vx_facts v0 t' t2 gnews nnews vf ->
  vlan_at (populate_all t2) (Some m, k) = Some x3 ->
  exists x x' x2,
    vlan_at t (Some m, k) = Some x /\ vlan_at t' (Some m, k) = Some x' /\ vlan_at t2 (Some m, k) = Some x2
    /\ vl_id x3 = vl_id x' 
    /\ match dget k (tp_vlans t), dget k (tp_vlans t'), dget k (tp_vlans t2) with
       | Some g, Some g', Some g2 =>
           (forall y, vl_vni x = Some y -> vl_vni g = Some y) /\ vl_vni g' = vl_vni g
           /\ vl_vni x3 = over (vl_vni g) (vl_vni g2)
       | None, None, None =>
           vl_vni x' = vl_vni x /\ vl_vni x3 = vl_vni x2
           /\ vni_step (tp_start_vni t) (Some (tp_vlans t2)) (iv_used vf) (node_news m nnews) k x' x2
       | _, _, _ => False
       end.
Proof.
  intros t t' t2 pg pn t1 v0 gnews nnews vf m k x3 W P E X H.
  rewrite populate_all_at in H.
  destruct (dget m (tp_nodes t2)) as [nd2|] eqn:N2; [|discriminate].
  destruct (dget k (vn_vlans nd2)) as [x2|] eqn:K2; [|discriminate]. assert (H3 : pop1 t2 (vn_mode nd2) k x2 = x3) by congruence. clear H.
  pose proof (Forall2_vnodes_dget _ _ _ _ _ m (xf_nodes _ _ _ _ _ _ X)) as R. rewrite N2 in R.
  destruct (dget m (tp_nodes t')) as [nd'|] eqn:N'; [|contradiction].
  destruct R as [_ [_ [_ [R _]]]]. cbn [fst snd] in R. specialize (R k). rewrite K2 in R.
  destruct (dget k (vn_vlans nd')) as [x'|] eqn:K'; [|contradiction].
  assert (A' : vlan_at t' (Some m, k) = Some x') by (cbn [vlan_at]; now rewrite N').
  destruct (pre_node_vlan _ _ _ _ _ _ _ _ P A') as [nd [nd'' [x [D1 [D2 [D3 [_ [_ ND]]]]]]]].
  assert (A : vlan_at t (Some m, k) = Some x) by (cbn [vlan_at]; now rewrite D1).
  assert (A2 : vlan_at t2 (Some m, k) = Some x2) by (cbn [vlan_at]; now rewrite N2).
  assert (V1 : tp_vlans t1 = tp_vlans t') by (rewrite (pf_t1 _ _ _ _ _ P); reflexivity).
  assert (Sv : tp_start_vni t2 = tp_start_vni t).
  { rewrite (xf_start _ _ _ _ _ _ X), (pf_t' _ _ _ _ _ P). reflexivity. }
  pose proof (pre_global _ _ _ _ _ k P) as G.
  pose proof (xf_glob _ _ _ _ _ _ X k) as G2.
  destruct W as [_ [_ [_ WM]]].
  exists x, x', x2. split; auto. split; auto. split; auto.
  destruct ND as [_ [_ [Nv [Nm Ni]]]]. cbn [fst snd node_pre_vlan] in Nv, Nm, Ni. rewrite V1 in Nv, Nm, Ni.
  destruct (dget k (tp_vlans t)) as [g|] eqn:Eg.
  - destruct (dget k (tp_vlans t')) as [g'|] eqn:Eg'; [|contradiction].
    destruct (dget k (tp_vlans t2)) as [g2|] eqn:Eg2; [|contradiction].
    cbn [snd merge_vlan set_node_vlan_mode vl_vni vl_merged vl_id] in Nv, Nm, Ni.
    destruct G as [[_ [Gv [Gm Gi]]] _]. cbn [fst snd] in Gv, Gm, Gi.
    assert (Mg : vl_merged g = false) by (apply (WM (None, k)); exact Eg).
    assert (Mx : vl_merged x = false) by (apply (WM (Some m, k)); exact A).
    destruct R as [Ri [_ [Rm [Rv|[n0 [i0 [_ [_ [_ [Rg _]]]]]]]]]].
    2:{ rewrite Eg2 in Rg. discriminate. }
    assert (M2 : vl_merged x2 = false) by (rewrite Rm, Nm, Mx, Gm, Mg; reflexivity).
    destruct (pop1_vni t2 (vn_mode nd2) k x2 M2) as [PV PI].
    rewrite Eg2 in PV, PI. rewrite H3 in PV, PI.
    assert (Eg1 : dget k (tp_vlans t1) = Some g') by (rewrite V1; exact Eg').
    destruct (no_mismatch _ _ _ _ _ _ _ E D1 D3 Eg1) as [_ MV].
    assert (NV : vl_vni x' = vl_vni g').
    { rewrite Nv. destruct (vl_vni x) as [y|] eqn:Ey; cbn [over]; auto. symmetry. auto. }
    destruct (pre_slot _ _ _ _ _ _ _ P E A') as [x0 [i [_ [Hi _]]]].
    split; [|split; [|split]].
    + rewrite PI, Ri, Hi. reflexivity.
    + intros y Hy. rewrite <- Gv. auto.
    + exact Gv.
    + rewrite PV, Rv, NV, Gv. reflexivity.
  - destruct (dget k (tp_vlans t')) as [g'|] eqn:Eg'; [contradiction|].
    destruct (dget k (tp_vlans t2)) as [g2|] eqn:Eg2; [contradiction|].
    cbn [snd set_node_vlan_mode vl_vni vl_merged vl_id] in Nv, Nm, Ni.
    assert (Mx : vl_merged x = false) by (apply (WM (Some m, k)); exact A).
    pose proof R as [Ri [_ [Rm _]]].
    assert (M2 : vl_merged x2 = false) by (rewrite Rm, Nm; exact Mx).
    destruct (pop1_vni t2 (vn_mode nd2) k x2 M2) as [PV PI]. rewrite Eg2 in PV, PI. rewrite H3 in PV, PI.
    split; [rewrite PI; auto|]. split; auto. split; auto. rewrite <- Sv. exact R.
Qed.

(* the VNI of a slot comes from its owner *)
Lemma slot_vni : forall t t' t2 pg pn t1 v0 gnews nnews vf s x3 n,
  wf_topo t -> pre_facts t t' pg pn t1 ->
  [] = flat_map (fun kn : string * vnode => node_pre_errors t1 (fst kn) (snd kn)) (tp_nodes t) ->
  vx_facts v0 t' t2 gnews nnews vf ->
  vlan_at (populate_all t2) s = Some x3 -> vl_vni x3 = Some (VniN n) ->
  exists x0 i, vlan_at t (owner t s) = Some x0 /\ vl_id x3 = Some i
    /\ (vl_vni x0 = Some (VniN n)
        \/ vni_auto x0 /\ in_news gnews nnews (owner t s) n
           /\ (n = tp_start_vni t + i \/ tp_start_vni t <= n <= 16777215 /\ In (tp_start_vni t + i) (iv_used vf))).
Proof.
  intros t t' t2 pg pn t1 v0 gnews nnews vf [[m|] k] x3 n W P E X H Hn.
  - destruct (slot_stages _ _ _ _ _ _ _ _ _ _ _ _ _ W P E X H) as [x [x' [x2 [A [A' [A2 [Hid R]]]]]]].
    destruct (pre_slot _ _ _ _ _ _ _ P E A') as [y0 [i [Y1 [Y2 Y3]]]]. rewrite Y2 in Hid.
    exists y0, i. split; auto. split; auto.
    destruct (dget k (tp_vlans t)) as [g|] eqn:Eg.
    + destruct (dget k (tp_vlans t')) as [g'|] eqn:Eg'; [|contradiction].
      destruct (dget k (tp_vlans t2)) as [g2|] eqn:Eg2; [|contradiction].
      destruct R as [_ [Rg R]]. rewrite Hn in R.
      rewrite (owner_global _ _ _ (Some m) Eg) in *. cbn [vlan_at] in Y1. rewrite Eg in Y1. inversion Y1; subst y0.
      destruct (vl_vni g) as [y|] eqn:Ev; cbn [over] in R; [left; congruence|].
      right. pose proof (xf_glob _ _ _ _ _ _ X k) as G2. rewrite Eg', Eg2 in G2.
      destruct G2 as [Gi [_ [_ [G2|[n' [i' [B1 [B2 [B3 [_ [B5 B6]]]]]]]]]]].
      * rewrite Rg in G2. congruence.
      * assert (n' = n) by congruence. subst n'.
        assert (i' = i).
        { pose proof (pre_slot _ _ _ _ _ (None, k) _ P E Eg') as Q.
          destruct Q as [q0 [iq [Q1 [Q2 Q3]]]]. rewrite (owner_global _ _ _ None Eg) in Q1, Q3. cbn [vlan_at] in Q1.
          rewrite Eg in Q1. inversion Q1; subst q0. rewrite B5 in Q2. inversion Q2; subst iq.
          destruct (vl_id g); [congruence|]. unfold in_news in Q3, Y3. cbn [fst snd] in Q3, Y3.
          pose proof (pre_global _ _ _ _ _ k P) as G. rewrite Eg, Eg' in G.
          pose proof (pf_nodup _ _ _ _ _ P) as ND.
          (* both are the id of the global VLAN *)
          destruct (pre_node_vlan _ _ _ _ _ _ _ _ P A') as [nd [nd'' [xx [D1 [D2 [D3 [_ [_ N]]]]]]]].
          destruct N as [_ [_ [_ [_ N]]]]. cbn [fst snd node_pre_vlan] in N.
          assert (V1 : tp_vlans t1 = tp_vlans t') by (rewrite (pf_t1 _ _ _ _ _ P); reflexivity).
          rewrite V1, Eg' in N. cbn [snd merge_vlan set_node_vlan_mode vl_id] in N.
          assert (Eg1 : dget k (tp_vlans t1) = Some g') by (rewrite V1; exact Eg').
          destruct (no_mismatch _ _ _ _ _ _ _ E D1 D3 Eg1) as [MI _].
          destruct (vl_id xx) as [j|]; cbn [over] in N.
          - specialize (MI j eq_refl). congruence.
          - rewrite B5 in N. congruence. }
        subst i'. split; [left; exact Ev|]. split; [exact B2|].
        assert (Sv : tp_start_vni t' = tp_start_vni t) by (rewrite (pf_t' _ _ _ _ _ P); reflexivity).
        rewrite Sv in B6. exact B6.
    + destruct (dget k (tp_vlans t')) as [g'|] eqn:Eg'; [contradiction|].
      destruct (dget k (tp_vlans t2)) as [g2|] eqn:Eg2; [contradiction|].
      destruct R as [R1 [R2 R3]]. rewrite (owner_local _ _ (Some m) Eg) in *.
      rewrite A in Y1. inversion Y1; subst y0.
      destruct R3 as [Ri [_ [_ [Rv|[n' [i' [B1 [B2 [B3 [_ [B5 B6]]]]]]]]]]].
      * left. congruence.
      * right. assert (n' = n) by congruence. assert (i' = i) by congruence. subst n' i'.
        split; [unfold vni_auto in *; rewrite <- R1; exact B3|]. split; [|exact B6].
        unfold in_news. cbn [fst snd]. now apply node_news_In.
  - rewrite populate_all_at in H. cbn [vlan_at] in H.
    pose proof (xf_glob _ _ _ _ _ _ X k) as G2. rewrite H in G2.
    destruct (dget k (tp_vlans t')) as [g'|] eqn:Eg'; [|contradiction].
    destruct (pre_slot _ _ _ _ _ (None, k) _ P E Eg') as [y0 [i [Y1 [Y2 Y3]]]].
    pose proof (pre_global _ _ _ _ _ k P) as G. rewrite Eg' in G.
    destruct (dget k (tp_vlans t)) as [g|] eqn:Eg; [|contradiction].
    rewrite (owner_global _ _ _ None Eg) in *. cbn [vlan_at] in Y1. rewrite Eg in Y1. inversion Y1; subst y0.
    destruct G as [[_ [Gv _]] _]. cbn [snd] in Gv.
    exists g, i. cbn [vlan_at]. split; auto.
    destruct G2 as [Gi [_ [_ [Rv|[n' [i' [B1 [B2 [B3 [_ [B5 B6]]]]]]]]]]].
    + split; [congruence|]. left. congruence.
    + split; [congruence|]. right. assert (n' = n) by congruence. assert (i' = i) by congruence. subst n' i'.
      split; [unfold vni_auto in *; rewrite <- Gv; exact B3|]. split; [exact B2|].
      assert (Sv : tp_start_vni t' = tp_start_vni t) by (rewrite (pf_t' _ _ _ _ _ P); reflexivity).
      rewrite Sv in B6. exact B6.
Qed.

(* numbers found in the final topology *)
Lemma static_kept : forall t t' t2 pg pn t1 v0 gnews nnews vf s x n,
  wf_topo t -> pre_facts t t' pg pn t1 ->
  [] = flat_map (fun kn : string * vnode => node_pre_errors t1 (fst kn) (snd kn)) (tp_nodes t) ->
  vx_facts v0 t' t2 gnews nnews vf ->
  vlan_at t s = Some x -> vl_vni x = Some (VniN n) ->
  exists x3, vlan_at (populate_all t2) s = Some x3 /\ vl_vni x3 = Some (VniN n).
Proof.
  intros t t' t2 pg pn t1 v0 gnews nnews vf [[m|] k] x n W P E X H Hn.
  - assert (D : exists x3, vlan_at (populate_all t2) (Some m, k) = Some x3).
    { rewrite populate_all_at.
      destruct (vlan_at t' (Some m, k)) as [x'|] eqn:A'.
      2:{ apply (pre_domain _ _ _ _ _ (Some m, k) P) in A'. congruence. }
      cbn [vlan_at] in A'. pose proof (Forall2_vnodes_dget _ _ _ _ _ m (xf_nodes _ _ _ _ _ _ X)) as R.
      destruct (dget m (tp_nodes t')) as [nd'|]; [|discriminate].
      destruct (dget m (tp_nodes t2)) as [nd2|]; [|contradiction].
      destruct R as [_ [_ [_ [R _]]]]. specialize (R k). cbn [fst snd] in R. rewrite A' in R.
      destruct (dget k (vn_vlans nd2)) as [x2|]; [|contradiction]. eauto. }
    destruct D as [x3 D]. exists x3. split; auto.
    destruct (slot_stages _ _ _ _ _ _ _ _ _ _ _ _ _ W P E X D) as [y [x' [x2 [A [A' [A2 [_ R]]]]]]].
    rewrite H in A. inversion A; subst y.
    destruct (dget k (tp_vlans t)) as [g|].
    + destruct (dget k (tp_vlans t')), (dget k (tp_vlans t2)); try contradiction.
      destruct R as [R1 [_ R2]]. rewrite R2, (R1 _ Hn). reflexivity.
    + destruct (dget k (tp_vlans t')), (dget k (tp_vlans t2)); try contradiction.
      destruct R as [R1 [R2 [_ [_ [_ [R3|[n' [i' [_ [_ [B _]]]]]]]]]]]; [congruence|].
      unfold vni_auto in B. rewrite R1, Hn in B. destruct B; discriminate.
  - rewrite populate_all_at. cbn [vlan_at] in *.
    pose proof (pre_global _ _ _ _ _ k P) as G. rewrite H in G.
    pose proof (xf_glob _ _ _ _ _ _ X k) as G2.
    destruct (dget k (tp_vlans t')) as [g'|]; [|contradiction].
    destruct (dget k (tp_vlans t2)) as [g2|]; [|contradiction].
    exists g2. split; auto. destruct G as [[_ [Gv _]] _]. cbn [snd] in Gv.
    destruct G2 as [_ [_ [_ [R3|[n' [i' [_ [_ [B _]]]]]]]]]; [congruence|].
    unfold vni_auto in B. rewrite Gv, Hn in B. destruct B; discriminate.
Qed.

Lemma news_kept : forall t t' t2 pg pn t1 v0 gnews nnews vf s n,
  wf_topo t -> pre_facts t t' pg pn t1 ->
  [] = flat_map (fun kn : string * vnode => node_pre_errors t1 (fst kn) (snd kn)) (tp_nodes t) ->
  vx_facts v0 t' t2 gnews nnews vf ->
  in_news gnews nnews s n ->
  exists x3, vlan_at (populate_all t2) s = Some x3 /\ vl_vni x3 = Some (VniN n).
Proof.
  intros t t' t2 pg pn t1 v0 gnews nnews vf [[m|] k] n W P E X H; unfold in_news in H; cbn [fst snd] in H.
  - destruct (xf_nset _ _ _ _ _ _ X _ _ _ H) as [NG [x2 [A2 Hv]]].
    assert (D : exists x3, vlan_at (populate_all t2) (Some m, k) = Some x3).
    { rewrite populate_all_at. cbn [vlan_at] in A2. destruct (dget m (tp_nodes t2)); [|discriminate]. rewrite A2. eauto. }
    destruct D as [x3 D]. exists x3. split; auto.
    destruct (slot_stages _ _ _ _ _ _ _ _ _ _ _ _ _ W P E X D) as [y [x' [y2 [A [A' [B2 [_ R]]]]]]].
    rewrite A2 in B2. inversion B2; subst y2.
    destruct (dget k (tp_vlans t)) as [g|] eqn:Eg.
    + destruct (dget k (tp_vlans t')) as [g'|] eqn:Eg'; [|contradiction].
      destruct (dget k (tp_vlans t2)) as [g2|] eqn:Eg2; [|contradiction].
      discriminate.
    + destruct (dget k (tp_vlans t')), (dget k (tp_vlans t2)); try contradiction.
      destruct R as [_ [R2 _]]. congruence.
  - rewrite populate_all_at. exact (xf_gset _ _ _ _ _ _ X _ _ H).
Qed.

Lemma register_used_at : forall t i, wf_topo t -> In i (iv_used (register_static_vni t)) ->
  exists s x, vlan_at t s = Some x /\ vl_vni x = Some (VniN i).
Proof.
  intros t i [W1 [W2 [W3 _]]] H. apply register_used in H.
  destruct H as [[k [x [H1 H2]]]|[n [nd [k [x [H1 [H2 H3]]]]]]].
  - exists (None, k), x. split; auto. cbn [vlan_at]. apply dget_NoDup; auto.
  - exists (Some n, k), x. split; auto. cbn [vlan_at].
    assert (D : dget n (tp_nodes t) = Some nd) by (apply dget_NoDup; auto). rewrite D.
    apply dget_NoDup; eauto.
Qed.

Lemma in_news_slot : forall gnews nnews i, In i (map snd gnews ++ map snd nnews) -> exists s, in_news gnews nnews s i.
Proof.
  intros gnews nnews i H. apply in_app_or in H. destruct H as [H|H]; apply in_map_iff in H.
  - destruct H as [[k i'] [<- H]]. exists (None, k). exact H.
  - destruct H as [[[n k] i'] [<- H]]. exists (Some n, k). exact H.
Qed.

(* C33: a VLAN without a static VNI that gets one gets the start value plus its VLAN id, or a
   number in the configured range when that number is taken by another VLAN; in both cases the
   number is different from every static VNI and from the VNI of every other VLAN *)
Theorem vnis_unique : forall t t3 s x3 n,
  vlan_transform t = Ok ([], t3) -> wf_topo t -> tp_start t <= 4094 -> tp_start_vni t <= 16777215 ->
  vlan_at t3 s = Some x3 -> vl_vni x3 = Some (VniN n) ->
  exists x0 i, vlan_at t (owner t s) = Some x0 /\ vl_id x3 = Some i
    /\ (vl_vni x0 = Some (VniN n)
        \/ vni_auto x0
           /\ (forall s2 x2, vlan_at t s2 = Some x2 -> vl_vni x2 <> Some (VniN n))
           /\ (forall s2 x2, vlan_at t3 s2 = Some x2 -> vl_vni x2 = Some (VniN n) -> owner t s2 = owner t s)
           /\ (n = tp_start_vni t + i
               \/ tp_start_vni t <= n <= 16777215
                  /\ exists s2 x2, vlan_at t3 s2 = Some x2 /\ vl_vni x2 = Some (VniN (tp_start_vni t + i)))).
Proof.
  intros t t3 s x3 n H W S1 S2 Hs Hn.
  destruct (vlan_transform_facts _ _ H W S1 S2) as [t' [t2 [pg [pn [t1 [gnews [nnews [vf [Hp [P [E [X ->]]]]]]]]]]]].
  destruct (slot_vni _ _ _ _ _ _ _ _ _ _ _ _ _ W P E X Hs Hn) as [x0 [i [A1 [A2 A3]]]].
  exists x0, i. split; auto. split; auto. destruct A3 as [A3|[B1 [B2 B3]]]; auto. right.
  pose proof (xf_grown _ _ _ _ _ _ X) as [G1 [G2 G3]].
  pose proof (G3 n (in_news_in _ _ _ _ B2)) as Fr.
  split; auto. split; [|split].
  - intros s2 x2 K1 K2. apply Fr. eapply static_vni_used; eauto.
  - intros s2 x2 K1 K2. destruct (slot_vni _ _ _ _ _ _ _ _ _ _ _ _ _ W P E X K1 K2) as [y0 [j [L1 [L2 L3]]]].
    destruct L3 as [L3|[_ [L3 _]]].
    + exfalso. apply Fr. eapply static_vni_used; eauto.
    + eapply in_news_inj; eauto.
  - destruct B3 as [B3|[B3 B4]]; auto. right. split; auto.
    apply G1 in B4. destruct B4 as [B4|B4].
    + apply in_news_slot in B4. destruct B4 as [s2 B4].
      destruct (news_kept _ _ _ _ _ _ _ _ _ _ _ _ W P E X B4) as [x2 K]. exists s2, x2. auto.
    + apply register_used_at in B4; auto. destruct B4 as [s2 [x2 [K1 K2]]].
      destruct (static_kept _ _ _ _ _ _ _ _ _ _ _ _ _ W P E X K1 K2) as [x4 K]. exists s2, x4. auto.
Qed.

(* C33: static VNIs are kept, and all copies of a global VLAN share its VNI *)
Theorem vnis_kept : forall t t3 s x,
  vlan_transform t = Ok ([], t3) -> wf_topo t -> tp_start t <= 4094 -> tp_start_vni t <= 16777215 ->
  vlan_at t s = Some x ->
  exists x3, vlan_at t3 s = Some x3
    /\ (forall n, vl_vni x = Some (VniN n) -> vl_vni x3 = Some (VniN n))
    /\ (forall x4 n, vlan_at t3 (owner t s) = Some x4 -> vl_vni x3 = Some (VniN n) -> vl_vni x4 = Some (VniN n)).
Proof.
  intros t t3 s x H W S1 S2 Hs.
  destruct (vlan_transform_facts _ _ H W S1 S2) as [t' [t2 [pg [pn [t1 [gnews [nnews [vf [Hp [P [E [X ->]]]]]]]]]]]].
  assert (D : exists x3, vlan_at (populate_all t2) s = Some x3).
  { rewrite populate_all_at. destruct s as [[m|] k].
    - destruct (vlan_at t' (Some m, k)) as [x'|] eqn:A'.
      2:{ apply (pre_domain _ _ _ _ _ (Some m, k) P) in A'. congruence. }
      cbn [vlan_at] in A'. pose proof (Forall2_vnodes_dget _ _ _ _ _ m (xf_nodes _ _ _ _ _ _ X)) as R.
      destruct (dget m (tp_nodes t')) as [nd'|]; [|discriminate].
      destruct (dget m (tp_nodes t2)) as [nd2|]; [|contradiction].
      destruct R as [_ [_ [_ [R _]]]]. specialize (R k). cbn [fst snd] in R. rewrite A' in R.
      destruct (dget k (vn_vlans nd2)) as [x2|]; [|contradiction]. eauto.
    - destruct (vlan_at t' (None, k)) as [x'|] eqn:A'.
      2:{ apply (pre_domain _ _ _ _ _ (None, k) P) in A'. congruence. }
      cbn [vlan_at] in *. pose proof (xf_glob _ _ _ _ _ _ X k) as G2. rewrite A' in G2.
      destruct (dget k (tp_vlans t2)) as [g2|]; [eauto|contradiction]. }
  destruct D as [x3 D]. exists x3. split; auto. split.
  - intros n Hn. destruct (static_kept _ _ _ _ _ _ _ _ _ _ _ _ _ W P E X Hs Hn) as [x4 [K1 K2]]. congruence.
  - intros x4 n K1 K2. destruct (slot_vni _ _ _ _ _ _ _ _ _ _ _ _ _ W P E X D K2) as [x0 [i [A1 [A2 A3]]]].
    destruct A3 as [A3|[B1 [B2 B3]]].
    + destruct (static_kept _ _ _ _ _ _ _ _ _ _ _ _ _ W P E X A1 A3) as [x5 [L1 L2]]. congruence.
    + destruct (news_kept _ _ _ _ _ _ _ _ _ _ _ _ W P E X B2) as [x5 [L1 L2]]. congruence.
Qed.

(* C33: without explicit vxlan.vlans lists every VLAN has a VNI, unless it was switched off *)
Lemma vxlan_list_all : forall d topo k, In k (dkeys d) -> In k (vxlan_list None d topo).
Proof.
  intros d topo k H. unfold vxlan_list. destruct d as [|kx d]; [destruct H|].
  assert (Q : forall l acc, In k acc ->
    In k (fold_left (fun acc k => if memS k acc then acc else acc ++ [k]) l acc)).
  { induction l as [|y l IH]; intros acc Hk; cbn [fold_left]; auto. apply IH.
    destruct (memS y acc); auto. apply in_or_app; auto. }
  apply Q. exact H.
Qed.

Theorem vnis_assigned : forall t t3 s x3,
  vlan_transform t = Ok ([], t3) -> wf_topo t -> tp_start t <= 4094 -> tp_start_vni t <= 16777215 ->
  tp_vxlan t = None -> (forall n nd, dget n (tp_nodes t) = Some nd -> vn_vxlan nd = None) ->
  (forall s2 x, vlan_at t s2 = Some x -> forall b, vl_vni x <> Some (VniB b)) ->
  vlan_at t3 s = Some x3 -> exists n, vl_vni x3 = Some (VniN n).
Proof.
  intros t t3 s x3 H W S1 S2 V1 V2 VB Hs.
  destruct (vlan_transform_facts _ _ H W S1 S2) as [t' [t2 [pg [pn [t1 [gnews [nnews [vf [Hp [P [E [X ->]]]]]]]]]]]].
  assert (Tx : tp_vxlan t' = None) by (rewrite (pf_t' _ _ _ _ _ P); exact V1).
  assert (GL : forall k g2, dget k (tp_vlans t2) = Some g2 -> exists n, vl_vni g2 = Some (VniN n)).
  { intros k g2 Hk. pose proof (xf_glob _ _ _ _ _ _ X k) as G2. rewrite Hk in G2.
    destruct (dget k (tp_vlans t')) as [g'|] eqn:Eg'; [|contradiction].
    assert (NA : ~ vni_auto g2).
    { apply (xf_list _ _ _ _ _ _ X k); auto. rewrite Tx. apply vxlan_list_all. eapply dget_Some_key; eauto. }
    pose proof (pre_global _ _ _ _ _ k P) as G. rewrite Eg' in G.
    destruct (dget k (tp_vlans t)) as [g|] eqn:Eg; [|contradiction].
    destruct G as [[_ [Gv _]] _]. cbn [snd] in Gv.
    destruct G2 as [_ [_ [_ [R|[n [i [R _]]]]]]]; [|eauto].
    destruct (vl_vni g2) as [[b|n]|] eqn:Ev; [|eauto|exfalso; apply NA; left; auto].
    exfalso. apply (VB (None, k) g Eg b). congruence. }
  destruct s as [[m|] k].
  - destruct (slot_stages _ _ _ _ _ _ _ _ _ _ _ _ _ W P E X Hs) as [x [x' [x2 [A [A' [A2 [_ R]]]]]]].
    destruct (dget k (tp_vlans t)) as [g|] eqn:Eg.
    + destruct (dget k (tp_vlans t')) as [g'|] eqn:Eg'; [|contradiction].
      destruct (dget k (tp_vlans t2)) as [g2|] eqn:Eg2; [|contradiction].
      destruct R as [_ [_ R]]. rewrite R. destruct (vl_vni g) as [[b|n]|] eqn:Ev; cbn [over]; eauto.
      exfalso. apply (VB (None, k) g Eg b). auto.
    + destruct (dget k (tp_vlans t')) eqn:Eg'; [contradiction|].
      destruct (dget k (tp_vlans t2)) eqn:Eg2; [contradiction|].
      destruct R as [R1 [R2 R3]]. rewrite R2.
      pose proof (Forall2_vnodes_dget _ _ _ _ _ m (xf_nodes _ _ _ _ _ _ X)) as Q.
      pose proof (pre_node _ _ _ _ _ m P) as Q0.
      cbn [vlan_at] in A, A', A2. destruct (dget m (tp_nodes t')) as [nd'|]; [|discriminate].
      destruct (dget m (tp_nodes t2)) as [nd2|]; [|discriminate].
      destruct (dget m (tp_nodes t)) as [nd|] eqn:En; [|discriminate].
      destruct Q0 as [_ [_ [Q0 _]]]. cbn [fst snd] in Q0. rewrite (V2 _ _ En) in Q0.
      destruct Q as [_ [_ [_ [_ Q]]]]. cbn [fst snd] in Q. rewrite Q0 in Q.
      assert (NA : ~ vni_auto x2).
      { apply (Q k); auto. apply vxlan_list_all. eapply dget_Some_key; eauto. }
      destruct R3 as [_ [_ [_ [R|[n [i [R _]]]]]]]; [|eauto].
      destruct (vl_vni x2) as [[b|n]|] eqn:Ev; [|eauto|exfalso; apply NA; left; auto].
      exfalso. apply (VB (Some m, k) x) with (b := b); [cbn [vlan_at]; rewrite En; exact A|congruence].
  - rewrite populate_all_at in Hs. cbn [vlan_at] in Hs. eauto.
Qed.

(* ------------------------------------------------------------------ *)
(* C34: forwarding modes                                                *)

(* the first mode that is set (and not empty), irb if there is none *)
Fixpoint first_set (l : list (option string)) : string :=
  match l with
  | [] => "irb"%string
  | Some m :: r => if String.eqb m EmptyString then first_set r else m
  | None :: r => first_set r
  end.

Definition own_mode (d : dict vlan) (k : string) : option string :=
  match dget k d with Some x => vl_mode x | None => None end.

Definition effective_mode (t : vtopo) (nd : vnode) (k : string) : string :=
  first_set [own_mode (vn_vlans nd) k; vn_mode nd; own_mode (tp_vlans t) k; tp_mode t].

Lemma or_first : forall a b l, b = Some (first_set l) -> or_str a b = Some (first_set (a :: l)).
Proof. intros [[|c m]|] b l ->; reflexivity. Qed.

Lemma set_mode_first : forall x a b c, vl_mode (set_node_vlan_mode x a b c) = Some (first_set [vl_mode x; a; b; c]).
Proof. intros. cbn [set_node_vlan_mode vl_mode]. repeat apply or_first. reflexivity. Qed.

Lemma first_set_ne : forall l, first_set l <> EmptyString.
Proof.
  induction l as [|[m|] l IH]; cbn [first_set]; auto; [discriminate|].
  destruct (String.eqb_spec m EmptyString); auto.
Qed.

Lemma first_set_some : forall l r, first_set (Some (first_set l) :: r) = first_set l.
Proof.
  intros l r. cbn [first_set]. destruct (String.eqb_spec (first_set l) EmptyString); auto.
  exfalso. eapply first_set_ne; eauto.
Qed.

Lemma first_set_dup : forall a b c, first_set [a; b; a; c] = first_set [a; b; None; c].
Proof.
  intros a b c. cbn [first_set]. destruct a as [m|]; auto.
  destruct (String.eqb_spec m EmptyString); auto.
Qed.

(* mode of a node VLAN after node_pre_transform *)
Lemma pre_mode : forall t t' pg pn t1 n nd k x,
  pre_facts t t' pg pn t1 -> dget n (tp_nodes t) = Some nd -> dget k (vn_vlans nd) = Some x ->
  exists x', vlan_at t' (Some n, k) = Some x' /\ vl_mode x' = Some (effective_mode t nd k).
Proof.
  intros t t' pg pn t1 n nd k x P Hn Hk.
  destruct (vlan_at t' (Some n, k)) as [x'|] eqn:A'.
  2:{ apply (pre_domain _ _ _ _ _ (Some n, k) P) in A'. cbn [vlan_at] in A'. rewrite Hn in A'. congruence. }
  exists x'. split; auto.
  destruct (pre_node_vlan _ _ _ _ _ _ _ _ P A') as [nd0 [nd' [x0 [D1 [_ [D3 [_ [_ ND]]]]]]]].
  assert (nd0 = nd) by congruence. subst nd0. assert (x0 = x) by congruence. subst x0.
  destruct ND as [_ [Nm _]]. cbn [snd] in Nm. rewrite Nm. clear Nm.
  unfold node_pre_vlan, effective_mode, own_mode. rewrite Hk.
  assert (V1 : tp_vlans t1 = tp_vlans t') by (rewrite (pf_t1 _ _ _ _ _ P); reflexivity).
  assert (M1 : tp_mode t1 = tp_mode t) by (rewrite (pf_t1 _ _ _ _ _ P); reflexivity).
  rewrite V1, M1. pose proof (pre_global _ _ _ _ _ k P) as G.
  destruct (dget k (tp_vlans t)) as [g|].
  - destruct (dget k (tp_vlans t')) as [g'|]; [|contradiction]. destruct G as [_ G].
    cbn [snd]. unfold merge_vlan. cbn [vl_mode]. rewrite set_mode_first. cbn [over]. now rewrite G.
  - destruct (dget k (tp_vlans t')) as [g'|]; [contradiction|]. cbn [snd].
    now rewrite set_mode_first, first_set_dup.
Qed.

Lemma gmode_kept : forall t t' t2 pg pn t1 v0 gn nn vf k,
  pre_facts t t' pg pn t1 -> vx_facts v0 t' t2 gn nn vf -> own_mode (tp_vlans t2) k = own_mode (tp_vlans t) k.
Proof.
  intros t t' t2 pg pn t1 v0 gn nn vf k P X. unfold own_mode.
  pose proof (pre_global _ _ _ _ _ k P) as G. pose proof (xf_glob _ _ _ _ _ _ X k) as G2.
  destruct (dget k (tp_vlans t)), (dget k (tp_vlans t')), (dget k (tp_vlans t2)); try contradiction; auto.
  destruct G as [_ G]. destruct G2 as [_ [G2 _]]. congruence.
Qed.

Lemma final_node : forall t t' t2 pg pn t1 v0 gn nn vf n nd,
  pre_facts t t' pg pn t1 -> vx_facts v0 t' t2 gn nn vf -> dget n (tp_nodes t) = Some nd ->
  exists nd2, dget n (tp_nodes t2) = Some nd2 /\ vn_mode nd2 = vn_mode nd
    /\ dget n (tp_nodes (populate_all t2)) = Some (populate_node_vlan_data t2 nd2)
    /\ forall k, match dget k (vn_vlans nd), dget k (vn_vlans nd2) with
                 | Some x, Some x2 => vl_mode x2 = Some (effective_mode t nd k)
                 | None, None => True
                 | _, _ => False
                 end.
Proof.
  intros t t' t2 pg pn t1 v0 gn nn vf n nd P X Hn.
  pose proof (pre_node _ _ _ _ _ n P) as Q. rewrite Hn in Q.
  destruct (dget n (tp_nodes t')) as [nd'|] eqn:N'; [|contradiction].
  pose proof (Forall2_vnodes_dget _ _ _ _ _ n (xf_nodes _ _ _ _ _ _ X)) as R. rewrite N' in R.
  destruct (dget n (tp_nodes t2)) as [nd2|] eqn:N2; [|contradiction].
  exists nd2. split; auto.
  assert (R2 := R). destruct R2 as [_ [Rm [_ [R2 _]]]]. cbn [fst snd] in Rm, R2.
  assert (Q2 := Q). destruct Q2 as [_ [Qm [_ Q2]]]. cbn [fst snd] in Qm, Q2.
  split; [congruence|]. split.
  { cbn [populate_all with_vlans tp_nodes]. rewrite dget_map, N2. reflexivity. }
  intros k. specialize (R2 k). pose proof (Forall2_dget _ _ _ k (node_done_key _ _ _ _) Q2) as D.
  destruct (dget k (vn_vlans nd)) as [x|] eqn:Ex.
  - destruct (dget k (vn_vlans nd')) as [x'|] eqn:Ex'; [|contradiction].
    destruct (dget k (vn_vlans nd2)) as [x2|] eqn:Ex2; [|contradiction].
    destruct (pre_mode _ _ _ _ _ _ _ _ _ P Hn Ex) as [y [A B]]. cbn [vlan_at] in A. rewrite N', Ex' in A.
    inversion A; subst y. destruct R2 as [_ [R2 _]]. congruence.
  - destruct (dget k (vn_vlans nd')); [contradiction|].
    destruct (dget k (vn_vlans nd2)); [contradiction|]. auto.
Qed.

Lemma pop1_mode : forall t m k x l, vl_mode x = Some (first_set l) -> vl_mode (pop1 t m k x) = Some (first_set l).
Proof.
  intros t m k x l H. unfold pop1, populate_node_vlan. cbn [vn_vlans dget vn_mode]. rewrite String.eqb_refl.
  destruct (vl_merged x); auto.
  unfold merge_vlan. cbn [vl_mode]. rewrite set_mode_first, H, first_set_some. reflexivity.
Qed.

Theorem vlan_mode_precedence : forall t t3 n nd k,
  vlan_transform t = Ok ([], t3) -> wf_topo t -> tp_start t <= 4094 -> tp_start_vni t <= 16777215 ->
  dget n (tp_nodes t) = Some nd ->
  exists nd3, dget n (tp_nodes t3) = Some nd3
    (* the mode of a VLAN defined in the node *)
    /\ (forall x, dget k (vn_vlans nd) = Some x ->
          exists x3, dget k (vn_vlans nd3) = Some x3 /\ vl_mode x3 = Some (effective_mode t nd k))
    (* creating the node VLAN (again) when it is used on a link yields the same mode *)
    /\ vl_mode (populate_node_vlan t3 nd3 k) = Some (effective_mode t nd k)
    (* the mode of an interface using the VLAN, unless set on the interface *)
    /\ (k <> EmptyString -> forall saved im,
          compute_interface_vlan_mode (Some k) saved im nd3 t3
          = first_set [saved; im; Some (effective_mode t nd k)]).
Proof.
  intros t t3 n nd k H W S1 S2 Hn.
  destruct (vlan_transform_facts _ _ H W S1 S2) as [t' [t2 [pg [pn [t1 [gnews [nnews [vf [Hp [P [E [X ->]]]]]]]]]]]].
  destruct (final_node _ _ _ _ _ _ _ _ _ _ _ _ P X Hn) as [nd2 [N2 [Nm [N3 V]]]].
  exists (populate_node_vlan_data t2 nd2). split; auto.
  assert (Tm : tp_mode t2 = tp_mode t).
  { rewrite (xf_mode _ _ _ _ _ _ X), (pf_t' _ _ _ _ _ P). reflexivity. }
  assert (Gm : own_mode (tp_vlans t2) k = own_mode (tp_vlans t) k) by (eapply gmode_kept; eauto).
  specialize (V k).
  assert (Vm : vn_mode (populate_node_vlan_data t2 nd2) = vn_mode nd) by exact Nm.
  destruct (dget k (vn_vlans nd)) as [x|] eqn:Ex.
  - destruct (dget k (vn_vlans nd2)) as [x2|] eqn:Ex2; [|contradiction].
    assert (D3 : dget k (vn_vlans (populate_node_vlan_data t2 nd2)) = Some (pop1 t2 (vn_mode nd2) k x2))
      by (rewrite populate_data, Ex2; reflexivity).
    assert (M3 : vl_mode (pop1 t2 (vn_mode nd2) k x2) = Some (effective_mode t nd k)) by (apply pop1_mode; exact V).
    split; [|split].
    + intros y Hy. eexists. split; eauto.
    + unfold populate_node_vlan. rewrite D3, pop1_merged. exact M3.
    + intros Hk saved im. unfold compute_interface_vlan_mode.
      destruct k as [|c k']; [contradiction|]. cbn [or_str]. rewrite D3, M3.
      remember (effective_mode t nd (String c k')) as em eqn:Eem.
      assert (Q : em <> EmptyString) by (subst em; apply first_set_ne).
      destruct saved as [[|c1 s1]|]; destruct im as [[|c2 s2]|]; cbn [or_str first_set String.eqb]; auto;
        destruct em; try contradiction; reflexivity.
  - destruct (dget k (vn_vlans nd2)) as [x2|] eqn:Ex2; [contradiction|].
    assert (D3 : dget k (vn_vlans (populate_node_vlan_data t2 nd2)) = None)
      by (rewrite populate_data, Ex2; reflexivity).
    split; [|split].
    + intros y Hy. discriminate.
    + unfold populate_node_vlan. rewrite D3. cbn [no_vlan vl_merged].
      unfold merge_vlan. cbn [vl_mode]. rewrite set_mode_first. cbn [over vl_mode].
      rewrite Vm. unfold effective_mode. unfold own_mode at 1. rewrite Ex.
      cbn [populate_all with_vlans tp_mode tp_vlans]. rewrite Tm, <- Gm. unfold own_mode.
      destruct (dget k (tp_vlans t2)); reflexivity.
    + intros Hk saved im. unfold compute_interface_vlan_mode.
      destruct k as [|c k']; [contradiction|]. cbn [or_str]. rewrite D3, Vm.
      cbn [populate_all with_vlans tp_mode tp_vlans]. rewrite Tm.
      change (match dget (String c k') (tp_vlans t2) with Some g => vl_mode g | None => None end)
        with (own_mode (tp_vlans t2) (String c k')). rewrite Gm.
      unfold effective_mode. unfold own_mode at 2. rewrite Ex.
      generalize (own_mode (tp_vlans t) (String c k')) as a. generalize (tp_mode t) as b. generalize (vn_mode nd) as e.
      intros e b a.
      destruct saved as [[|c1 s1]|]; destruct im as [[|c2 s2]|]; destruct e as [[|c3 s3]|];
        destruct a as [[|c4 s4]|]; destruct b as [[|c5 s5]|]; reflexivity.
Qed.

(* ------------------------------------------------------------------ *)
(* C39: flood lists                                                     *)

Definition participates (n : fnode) : Prop :=
  fn_module n = true /\ fn_connected n = true
  /\ ((exists k x, In (k, x) (fn_vlans n) /\ x <> None /\ x <> Some (VniB false) /\ x <> Some (VniN 0)) \/ fn_l3vni n = true)
  /\ fn_vtep n <> None.

Lemma joins_iff : forall n, joins n = true <-> participates n.
Proof.
  intros n. unfold joins, participates. rewrite !andb_true_iff, orb_true_iff, existsb_exists.
  assert (V : forall x, vni_enabled x = true <-> x <> None /\ x <> Some (VniB false) /\ x <> Some (VniN 0)).
  { intros [[[|]|m]|]; cbn [vni_enabled]; split; intros H; try discriminate; auto.
    - repeat split; discriminate.
    - destruct H as [_ [H _]]. congruence.
    - repeat split; try discriminate. intros C. inversion C; subst. discriminate.
    - destruct (Z.eqb_spec m 0); auto. subst. destruct H as [_ [_ H]]. congruence.
    - destruct H as [H _]. congruence. }
  split.
  - intros [[[H1 H2] H3] H4]. split; auto. split; auto. split.
    + destruct H3 as [[[k x] [H3 H5]]|H3]; auto. left. exists k, x. split; auto. now apply V.
    + destruct (fn_vtep n); discriminate.
  - intros [H1 [H2 [H3 H4]]]. repeat split; auto.
    + destruct H3 as [[k [x [H3 H5]]]|H3]; auto. left. exists (k, x). split; auto. now apply V.
    + destruct (fn_vtep n); auto.
Qed.

Definition members (ns : dict fnode) (dom : string) : list string :=
  dkeys (filter (fun kn => joins (snd kn) && String.eqb (fn_domain (snd kn)) dom) ns).

Definition get_list (dom : string) (d : dict (list string)) : list string :=
  match dget dom d with Some l => l | None => [] end.

Lemma domain_lists_get : forall ns acc dom, get_list dom (domain_lists ns acc) = get_list dom acc ++ members ns dom.
Proof.
  induction ns as [|[name n] r IH]; intros acc dom; cbn [domain_lists].
  - unfold members. cbn. now rewrite app_nil_r.
  - rewrite IH. unfold members. cbn [filter snd]. destruct (joins n); cbn [andb]; auto.
    destruct (String.eqb_spec (fn_domain n) dom) as [<-|Hne].
    + unfold get_list at 1. rewrite dget_dset_same. cbn [dkeys map fst].
      unfold get_list. now rewrite <- app_assoc.
    + unfold get_list at 1. rewrite dget_dset_other by auto. reflexivity.
Qed.

Lemma domain_lists_nodup : forall ns acc, NoDup (dkeys acc) -> NoDup (dkeys (domain_lists ns acc)).
Proof.
  induction ns as [|[name n] r IH]; intros acc H; cbn [domain_lists]; auto.
  apply IH. destruct (joins n); auto. apply NoDup_dset. auto.
Qed.

Lemma domain_lists_key : forall ns acc dom, In dom (dkeys (domain_lists ns acc)) <->
  In dom (dkeys acc) \/ members ns dom <> [].
Proof.
  induction ns as [|[name n] r IH]; intros acc dom; cbn [domain_lists].
  - unfold members. cbn. tauto.
  - rewrite IH. unfold members. cbn [filter snd]. destruct (joins n); cbn [andb]; [|tauto].
    destruct (String.eqb_spec (fn_domain n) dom) as [<-|Hne].
    + cbn [dkeys map fst]. split; [intros _; right; discriminate|]. intros _. left.
      eapply dget_Some_key. apply dget_dset_same.
    + assert (Q : forall v, In dom (dkeys (dset (fn_domain n) v acc)) <-> In dom (dkeys acc)).
      { intros v. rewrite <- !dmem_true. unfold dmem. rewrite dget_dset_other by auto. tauto. }
      rewrite Q. tauto.
Qed.

Lemma members_In : forall ns dom a, NoDup (dkeys ns) ->
  (In a (members ns dom) <-> exists n, dget a ns = Some n /\ participates n /\ fn_domain n = dom).
Proof.
  intros ns dom a ND. unfold members, dkeys. rewrite in_map_iff. split.
  - intros [[a' n] [E H]]. cbn [fst] in E. subst a'. apply filter_In in H. destruct H as [H1 H2].
    cbn [snd] in H2. apply andb_true_iff in H2. destruct H2 as [H2 H3]. exists n.
    split; [apply dget_NoDup; auto|]. split; [now apply joins_iff|]. now apply String.eqb_eq.
  - intros [n [H1 [H2 H3]]]. exists (a, n). split; auto. apply filter_In. split; [apply dget_In; auto|].
    cbn [snd]. apply andb_true_iff. split; [now apply joins_iff|]. now apply String.eqb_eq.
Qed.

Lemma members_NoDup : forall ns dom, NoDup (dkeys ns) -> NoDup (members ns dom).
Proof.
  intros ns dom ND. unfold members. induction ns as [|[a n] r IH]; cbn [filter]; [constructor|].
  cbn [dkeys map fst] in ND. inversion ND as [|? ? N1 N2]; subst.
  destruct (joins (snd (a, n)) && _); auto. cbn [dkeys map fst]. constructor; auto.
  intros C. apply N1. unfold dkeys in C. apply in_map_iff in C. destruct C as [z [Z1 Z2]].
  apply filter_In in Z2. apply in_map_iff. exists z. tauto.
Qed.

Lemma opt_vni_eqb_eq : forall a b, opt_vni_eqb a b = true <-> a = b.
Proof.
  intros [a|] [b|]; cbn [opt_vni_eqb]; split; intros H; try discriminate; auto.
  - apply vni_eqb_eq in H. subst. auto.
  - inversion H. now apply vni_eqb_eq.
Qed.

(* who is on the flood list *)
Definition flood_peer (topo : dict fnode) (a : string) (local : option string) (x : option vni) (b : string) (v : string) : Prop :=
  b <> a /\ vtep_of topo b = Some v /\ local <> Some v
  /\ exists nb k, dget b topo = Some nb /\ In (k, x) (fn_vlans nb).

Lemma vtep_loop_spec : forall topo a local x nodes acc,
  NoDup acc -> (forall v, In v acc -> local <> Some v) ->
  NoDup (vtep_loop topo a local x nodes acc)
  /\ forall v, In v (vtep_loop topo a local x nodes acc) <->
       In v acc \/ exists b, In b nodes /\ flood_peer topo a local x b v.
Proof.
  intros topo a local x nodes. induction nodes as [|n r IH]; intros acc ND NL; cbn [vtep_loop].
  - split; auto. intros v. split; auto. intros [H|[b [[] _]]]; auto.
  - assert (SKIP : (forall v, ~ flood_peer topo a local x n v \/ In v acc) ->
      NoDup (vtep_loop topo a local x r acc) /\
      forall v, In v (vtep_loop topo a local x r acc) <-> In v acc \/ exists b, In b (n :: r) /\ flood_peer topo a local x b v).
    { intros HS. destruct (IH acc ND NL) as [I1 I2]. split; auto. intros v. rewrite I2. split.
      - intros [H|[b [H1 H2]]]; auto. right. exists b. split; auto. right; auto.
      - intros [H|[b [[<-|H1] H2]]]; auto.
        + destruct (HS v) as [C|C]; auto. contradiction.
        + right. eauto. }
    destruct (String.eqb_spec n a) as [->|Hne].
    { apply SKIP. intros v. left. intros [C _]. congruence. }
    destruct (dget n topo) as [nd|] eqn:En.
    2:{ apply SKIP. intros v. left. intros [_ [_ [_ [nb [k [C _]]]]]]. congruence. }
    destruct (vtep_of topo n) as [rv|] eqn:Ev.
    2:{ apply SKIP. intros v. left. intros [_ [C _]]. congruence. }
    destruct ((match local with Some lv => String.eqb rv lv | None => false end) || memS rv acc) eqn:EL.
    { apply SKIP. intros v. destruct (String.eqb_spec v rv) as [->|Hv].
      - apply orb_true_iff in EL. destruct EL as [EL|EL].
        + left. intros [_ [_ [C _]]]. destruct local as [lv|]; [|discriminate]. apply String.eqb_eq in EL. congruence.
        + right. now apply memS_true.
      - left. intros [_ [C _]]. congruence. }
    apply orb_false_iff in EL. destruct EL as [EL1 EL2]. apply memS_false in EL2.
    assert (LV : local <> Some rv).
    { destruct local as [lv|]; [|discriminate]. apply String.eqb_neq in EL1. congruence. }
    destruct (existsb _ (fn_vlans nd)) eqn:EX.
    + apply existsb_exists in EX. destruct EX as [[k y] [X1 X2]]. cbn [snd] in X2. apply opt_vni_eqb_eq in X2. subst y.
      assert (ND' : NoDup (acc ++ [rv])).
      { apply NoDup_app_intro; auto; [constructor; [intros []|constructor]|]. intros v Hv [<-|[]]. contradiction. }
      assert (NL' : forall v, In v (acc ++ [rv]) -> local <> Some v).
      { intros v Hv. apply in_app_or in Hv. destruct Hv as [Hv|[<-|[]]]; auto. }
      destruct (IH _ ND' NL') as [I1 I2]. split; auto. intros v. rewrite I2, in_app_iff. split.
      * intros [[H|[<-|[]]]|[b [H1 H2]]]; auto.
        { right. exists n. split; [left; auto|]. split; auto. split; auto. split; auto. exists nd, k. auto. }
        { right. exists b. split; auto. right; auto. }
      * intros [H|[b [[<-|H1] H2]]]; auto.
        { destruct H2 as [_ [H2 _]]. left. right. left. congruence. }
        { right. eauto. }
    + apply SKIP. intros v. left. intros [_ [_ [_ [nb [k [C1 C2]]]]]].
      rewrite En in C1. inversion C1; subst nb.
      assert (T : existsb (fun kv : string * option vni => opt_vni_eqb (snd kv) x) (fn_vlans nd) = true).
      { apply existsb_exists. exists (k, x). split; auto. now apply opt_vni_eqb_eq. }
      congruence.
Qed.

Lemma insert_sorted_In : forall x l y, In y (insert_sorted x l) <-> y = x \/ In y l.
Proof.
  induction l as [|z l IH]; intros y; cbn [insert_sorted].
  - cbn. intuition.
  - destruct (String.compare x z) eqn:E.
    + apply String.compare_eq_iff in E. subst. cbn. intuition.
    + cbn. intuition.
    + cbn [In]. rewrite IH. intuition.
Qed.

Lemma fold_insert_In : forall l acc y,
  In y (fold_left (fun acc x => insert_sorted x acc) l acc) <-> In y l \/ In y acc.
Proof.
  induction l as [|x l IH]; intros acc y; cbn [fold_left].
  - cbn. tauto.
  - rewrite IH, insert_sorted_In. cbn. intuition.
Qed.

Lemma flood_entry : forall topo a fl, NoDup (dkeys topo) ->
  (In (a, fl) (flood_lists topo) <->
   exists n, dget a topo = Some n /\ participates n /\ fn_static n = true
     /\ fl = node_flood topo a (members topo (fn_domain n)) n).
Proof.
  intros topo a fl ND. unfold flood_lists. rewrite in_flat_map.
  assert (DL : forall dom l, In (dom, l) (domain_lists topo []) <-> l = members topo dom /\ members topo dom <> []).
  { intros dom l. pose proof (domain_lists_nodup topo [] (NoDup_nil _)) as DN.
    pose proof (domain_lists_get topo [] dom) as DG. unfold get_list in DG at 2. cbn [dget app] in DG.
    pose proof (domain_lists_key topo [] dom) as DK. split.
    - intros H. pose proof (dget_NoDup dom l _ DN H) as D. unfold get_list in DG. rewrite D in DG. split; auto.
      destruct DK as [DK _]. destruct DK as [[]|DK]; auto. apply in_map_iff. exists (dom, l). auto.
    - intros [-> H]. destruct DK as [_ DK]. assert (K : In dom (dkeys (domain_lists topo []))) by (apply DK; auto).
      unfold get_list in DG. destruct (dget dom (domain_lists topo [])) as [l|] eqn:D.
      + subst l. apply dget_In. auto.
      + apply dget_None in D. contradiction. }
  split.
  - intros [[dom l] [H1 H2]]. cbn [snd] in H2. apply DL in H1. destruct H1 as [-> _].
    apply in_flat_map in H2. destruct H2 as [b [H2 H3]].
    apply members_In in H2; auto. destruct H2 as [n [M1 [M2 M3]]]. rewrite M1 in H3.
    destruct (fn_static n) eqn:ES; [|destruct H3]. destruct H3 as [H3|[]]. inversion H3; subst b fl.
    exists n. rewrite M3. auto.
  - intros [n [H1 [H2 [H3 ->]]]].
    assert (M : In a (members topo (fn_domain n))) by (apply members_In; eauto).
    exists (fn_domain n, members topo (fn_domain n)). split.
    + apply DL. split; auto. intros C. rewrite C in M. destruct M.
    + cbn [snd]. apply in_flat_map. exists a. split; auto. rewrite H1, H3. left; auto.
Qed.

Lemma flood_vlans_get : forall (f : vni -> list string) (d : dict (option vni)) k x, NoDup (dkeys d) -> In (k, Some x) d ->
  get_list k (filter (fun kl : string * list string => match snd kl with [] => false | _ => true end)
     (flat_map (fun kv : string * option vni => match snd kv with None => [] | Some x => [(fst kv, f x)] end) d)) = f x.
Proof.
  intros f d k x. induction d as [|[a y] d IH]; intros ND H; [destruct H|].
  cbn [dkeys map fst] in ND. inversion ND as [|? ? N1 N2]; subst. cbn [flat_map snd fst].
  destruct H as [E|H].
  - inversion E; subst a y. cbn [app filter snd]. destruct (f x) as [|z l] eqn:F.
    + unfold get_list. match goal with |- match dget k ?d' with _ => _ end = _ => destruct (dget k d') eqn:D end; auto.
      exfalso. apply N1. apply dget_In in D. apply filter_In in D. destruct D as [D _]. apply in_flat_map in D.
      destruct D as [[b yy] [D1 D2]]. cbn [snd fst] in D2. destruct yy; [|destruct D2]. destruct D2 as [D2|[]].
      inversion D2; subst. apply in_map_iff. exists (k, Some v). auto.
    + unfold get_list. cbn [dget]. now rewrite String.eqb_refl.
  - assert (Hne : k <> a) by (intros ->; apply N1; apply in_map_iff; exists (a, Some x); auto).
    rewrite filter_app. unfold get_list. destruct y as [y|]; [|cbn [filter app]; apply IH; auto].
    cbn [filter snd]. destruct (f y) eqn:F; [cbn [app]; apply IH; auto|].
    cbn [app dget]. destruct (String.eqb_spec k a); [contradiction|]. apply IH; auto.
Qed.

(* another node with the same VNI in the same flooding domain, reachable through VTEP [v] *)
Definition floods_to (topo : dict fnode) (a : string) (n : fnode) (x : vni) (v : string) : Prop :=
  exists b nb k, b <> a /\ dget b topo = Some nb /\ participates nb /\ fn_domain nb = fn_domain n
    /\ fn_vtep nb = Some v /\ fn_vtep n <> Some v /\ In (k, Some x) (fn_vlans nb).

Theorem flood_list_exact : forall topo a n vl nl,
  NoDup (dkeys topo) -> dget a topo = Some n -> NoDup (dkeys (fn_vlans n)) ->
  In (a, (vl, nl)) (flood_lists topo) ->
  participates n /\ fn_static n = true
  /\ (forall k x, In (k, Some x) (fn_vlans n) ->
        NoDup (get_list k vl) /\ forall v, In v (get_list k vl) <-> floods_to topo a n x v)
  /\ (forall v, In v nl <-> exists k x, In (k, Some x) (fn_vlans n) /\ floods_to topo a n x v).
Proof.
  intros topo a n vl nl ND Ha NV H. apply flood_entry in H; auto.
  destruct H as [n' [H1 [H2 [H3 H4]]]]. rewrite Ha in H1. inversion H1; subst n'. split; auto. split; auto.
  unfold node_flood in H4. inversion H4 as [[E1 E2]]. clear H4.
  assert (SP : forall x, NoDup (build_vtep_list topo a (Some x) (members topo (fn_domain n)))
     /\ forall v, In v (build_vtep_list topo a (Some x) (members topo (fn_domain n))) <-> floods_to topo a n x v).
  { intros x. unfold build_vtep_list.
    assert (LV : vtep_of topo a = fn_vtep n).
    { unfold vtep_of. rewrite Ha. apply joins_iff in H2. now rewrite H2. }
    rewrite LV.
    destruct (vtep_loop_spec topo a (fn_vtep n) (Some x) (members topo (fn_domain n)) [] (NoDup_nil _)) as [S1 S2].
    { intros v []. }
    split; auto. intros v. rewrite S2. split.
    - intros [[]|[b [B1 [B2 [B3 [B4 [nb [k [B5 B6]]]]]]]]]. apply members_In in B1; auto.
      destruct B1 as [nb' [C1 [C2 C3]]]. rewrite B5 in C1. inversion C1; subst nb'.
      unfold vtep_of in B3. rewrite B5 in B3. destruct (joins nb); [|discriminate].
      exists b, nb, k. auto 8.
    - intros [b [nb [k [B1 [B2 [B3 [B4 [B5 [B6 B7]]]]]]]]]. right. exists b.
      split; [apply members_In; eauto|]. split; auto. split.
      + unfold vtep_of. rewrite B2. apply joins_iff in B3. now rewrite B3.
      + split; auto. exists nb, k. auto. }
  split.
  - intros k x Hk. rewrite (flood_vlans_get (fun x => build_vtep_list topo a (Some x) (members topo (fn_domain n)))
      (fn_vlans n) k x NV Hk). apply SP.
  - intros v. rewrite fold_insert_In, in_flat_map. split.
    + intros [[[k l] [K1 K2]]|[]]. apply in_flat_map in K1. destruct K1 as [[k' y] [K3 K4]]. cbn [snd fst] in *.
      destruct y as [x|]; [|destruct K4]. destruct K4 as [K4|[]]. inversion K4; subst k' l.
      exists k, x. split; auto. now apply SP.
    + intros [k [x [K1 K2]]]. left. exists (k, build_vtep_list topo a (Some x) (members topo (fn_domain n))).
      split; [|cbn [snd]; now apply SP]. apply in_flat_map. exists (k, Some x). split; auto. left; auto.
Qed.

(* every node with static replication has flood lists *)
Theorem flood_list_exists : forall topo a n, NoDup (dkeys topo) -> dget a topo = Some n ->
  ((exists vl nl, In (a, (vl, nl)) (flood_lists topo)) <-> participates n /\ fn_static n = true).
Proof.
  intros topo a n ND Ha. split.
  - intros [vl [nl H]]. apply flood_entry in H; auto. destruct H as [n' [H1 [H2 [H3 _]]]].
    rewrite Ha in H1. inversion H1; subst. auto.
  - intros [H1 H2]. destruct (node_flood topo a (members topo (fn_domain n)) n) as [vl nl] eqn:E.
    exists vl, nl. apply flood_entry; auto. exists n. auto.
Qed.

(* C39: flooding is symmetric *)
Theorem flood_lists_symmetric : forall topo a b na nb va vb la nla lb nlb ka kb x,
  NoDup (dkeys topo) -> dget a topo = Some na -> dget b topo = Some nb ->
  NoDup (dkeys (fn_vlans na)) -> NoDup (dkeys (fn_vlans nb)) ->
  a <> b -> fn_vtep na = Some va -> fn_vtep nb = Some vb -> va <> vb ->
  (forall c nc, dget c topo = Some nc -> fn_vtep nc = Some va \/ fn_vtep nc = Some vb -> c = a \/ c = b) ->
  In (a, (la, nla)) (flood_lists topo) -> In (b, (lb, nlb)) (flood_lists topo) ->
  In (ka, Some x) (fn_vlans na) -> In (kb, Some x) (fn_vlans nb) ->
  (In vb (get_list ka la) <-> In va (get_list kb lb)).
Proof.
  intros topo a b na nb va vb la nla lb nlb ka kb x ND Ha Hb NA NB Hab Hva Hvb Hv U Fa Fb Ka Kb.
  destruct (flood_list_exact _ _ _ _ _ ND Ha NA Fa) as [Pa [_ [La _]]].
  destruct (flood_list_exact _ _ _ _ _ ND Hb NB Fb) as [Pb [_ [Lb _]]].
  destruct (La ka x Ka) as [_ La']. destruct (Lb kb x Kb) as [_ Lb']. rewrite La', Lb'. split.
  - intros [c [nc [k [C1 [C2 [C3 [C4 [C5 [C6 C7]]]]]]]]].
    destruct (U c nc C2) as [->| ->]; auto; [congruence|]. rewrite Hb in C2. inversion C2; subst nc.
    exists a, na, ka. split; auto. split; auto. split; auto. split; auto. split; auto. split; auto. congruence.
  - intros [c [nc [k [C1 [C2 [C3 [C4 [C5 [C6 C7]]]]]]]]].
    destruct (U c nc C2) as [->| ->]; auto; [|congruence]. rewrite Ha in C2. inversion C2; subst nc.
    exists b, nb, kb. split; auto. split; auto. split; auto. split; auto. split; auto. split; auto. congruence.
Qed.

(* ------------------------------------------------------------------ *)
(* Concrete cases                                                       *)

Local Open Scope string_scope.
Local Open Scope Z_scope.

(* global VLANs: red without an id, blue with id 1001, green with VNI 101002 (the default of
   the VLAN with id 1002); node a redefines red and has local VLAN w, node b has local VLANs w
   and x (id 1000) *)
Definition vlan_example : vtopo :=
  mk_vtopo
    [("red", mk_vlan None None None false); ("blue", mk_vlan (Some 1001) None (Some "bridge") false);
     ("green", mk_vlan None (Some (VniN 101002)) None false)]
    (Some "route") None 1000 100000 None
    [("a", mk_vnode [("red", mk_vlan None None None false); ("w", mk_vlan None None None false);
                     ("blue", mk_vlan None None None false)] None None);
     ("b", mk_vnode [("w", mk_vlan None None (Some "irb") false); ("x", mk_vlan (Some 1000) None None false)]
             (Some "bridge") None)].

Example vlan_example_wf : wf_topo vlan_example.
Proof.
  split; [|split; [|split]].
  - cbn. repeat constructor; cbn; intuition discriminate.
  - cbn. repeat constructor; cbn; intuition discriminate.
  - intros n nd H. cbn [vlan_example tp_nodes] in H. apply dget_In in H. destruct H as [H|[H|[]]];
      inversion H; subst; cbn; repeat constructor; cbn; intuition discriminate.
  - intros [[n|] k] x H; cbn [vlan_at vlan_example tp_vlans tp_nodes] in H.
    + destruct (dget n _) as [nd|] eqn:E; [|discriminate]. apply dget_In in E. apply dget_In in H.
      destruct E as [E|[E|[]]]; inversion E; subst; cbn [vn_vlans In] in H;
        repeat (destruct H as [H|H]; [inversion H; subst; reflexivity|]); destruct H.
    + apply dget_In in H. repeat (destruct H as [H|H]; [inversion H; subst; reflexivity|]); destruct H.
Qed.

Example vlan_example_result : exists t', vlan_pre_transform vlan_example = Ok ([], t').
Proof. eexists. vm_compute. reflexivity. Qed.

Example vlan_example_final : exists t3, vlan_transform vlan_example = Ok ([], t3)
  /\ map (fun s => match vlan_at t3 s with Some x => (vl_id x, vl_vni x, vl_mode x) | None => (None, None, None) end)
       [(None, "red"); (None, "blue"); (None, "green"); (Some "a", "red"); (Some "a", "w"); (Some "a", "blue");
        (Some "b", "w"); (Some "b", "x")]
   = [(Some 1002, Some (VniN 100000), None); (Some 1001, Some (VniN 101001), Some "bridge");
      (Some 1003, Some (VniN 101002), None);
      (Some 1002, Some (VniN 100000), Some "route"); (Some 1004, Some (VniN 101004), Some "route");
      (Some 1001, Some (VniN 101001), Some "bridge"); (Some 1005, Some (VniN 101005), Some "irb");
      (Some 1000, Some (VniN 101000), Some "bridge")].
Proof. eexists. split; vm_compute; reflexivity. Qed.

Example vlan_mismatch_case :
  exists errs t', vlan_pre_transform
    (mk_vtopo [("red", mk_vlan None None None false)] None None 1000 100000 None
       [("a", mk_vnode [("red", mk_vlan (Some 1000) None None false)] None None)]) = Ok (errs, t')
    /\ errs = [("a", "red", "id")].
Proof. eexists. eexists. split; vm_compute; reflexivity. Qed.

(* three nodes in the same domain (a and c share an anycast VTEP), d in another domain *)
Definition flood_example : dict fnode :=
  [("a", mk_fnode true true [("red", Some (VniN 1)); ("blue", Some (VniN 2))] false (Some "10.0.0.1") "global" true);
   ("b", mk_fnode true true [("rot", Some (VniN 1))] false (Some "10.0.0.2") "global" true);
   ("c", mk_fnode true true [("red", Some (VniN 1))] false (Some "10.0.0.1") "global" true);
   ("d", mk_fnode true true [("red", Some (VniN 1))] false (Some "10.0.0.4") "other" true);
   ("e", mk_fnode true true [("red", None)] false (Some "10.0.0.5") "global" true);
   ("f", mk_fnode true true [("red", Some (VniN 1)); ("blue", Some (VniN 2))] false (Some "10.0.0.6") "global" false)].

Example flood_example_lists :
  NoDup (dkeys flood_example)
  /\ flood_lists flood_example
   = [("a", ([("red", ["10.0.0.2"; "10.0.0.6"]); ("blue", ["10.0.0.6"])], ["10.0.0.2"; "10.0.0.6"]));
      ("b", ([("rot", ["10.0.0.1"; "10.0.0.6"])], ["10.0.0.1"; "10.0.0.6"]));
      ("c", ([("red", ["10.0.0.2"; "10.0.0.6"])], ["10.0.0.2"; "10.0.0.6"]));
      ("d", ([], []))].
Proof.
  split; [cbn; repeat constructor; cbn; intuition discriminate | vm_compute; reflexivity].
Qed.

(* hypotheses of the symmetry theorem *)
Example flood_symmetric_case :
  let topo := [("a", mk_fnode true true [("red", Some (VniN 1))] false (Some "10.0.0.1") "global" true);
               ("b", mk_fnode true true [("rot", Some (VniN 1))] false (Some "10.0.0.2") "global" true)] in
  exists la nla lb nlb,
    In ("a", (la, nla)) (flood_lists topo) /\ In ("b", (lb, nlb)) (flood_lists topo)
    /\ get_list "red" la = ["10.0.0.2"] /\ get_list "rot" lb = ["10.0.0.1"].
Proof.
  cbv zeta. eexists. eexists. eexists. eexists. vm_compute.
  split; [left; reflexivity|]. split; [right; left; reflexivity|]. split; reflexivity.
Qed.

Print Assumptions vlan_ids_unique.
Print Assumptions vlan_id_mismatch_reported.
Print Assumptions vnis_unique.
Print Assumptions vnis_kept.
Print Assumptions vnis_assigned.
Print Assumptions vlan_mode_precedence.
Print Assumptions flood_list_exact.
Print Assumptions flood_list_exists.
Print Assumptions flood_lists_symmetric.
