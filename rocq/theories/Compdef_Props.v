(* Properties C120-C122: what component expansion means for nodes, groups and nested components. *)
From Coq Require Import String Ascii ZArith Lia Bool List.
From Verif Require Import Base Box_Model Box_Props Dev_Model Text_Model Text_Props Types_Model Types_Props
  Intf_Model Lnk_Model Lnk_Props Lnkgrp_Props Comp_Model Comp_Props.
From Verif Require Dev_Props.
Import ListNotations.
Local Open Scope string_scope.
Local Open Scope list_scope.
Local Open Scope nat_scope.

(* component [c] has a nested include request for component [d] under the name [x] *)
Definition nested (comps : dict comp) (c x d : string) : Prop :=
  exists cc nd, dget c comps = Some cc /\ In (x, nd) (c_nodes cc) /\ dget "include" nd = Some (VStr d).

(* [nd] is the data of the node found in component [c] by following the names in the list *)
Inductive leaf_at (comps : dict comp) : string -> list string -> node -> Prop :=
| la_here : forall c cc x nd, dget c comps = Some cc -> In (x, nd) (c_nodes cc) -> dget "include" nd = None ->
    leaf_at comps c [x] nd
| la_nested : forall c x d p nd, nested comps c x d -> leaf_at comps d p nd -> leaf_at comps c (x :: p) nd.

(* the name of a node: the names on the path to it, joined with underscores *)
Definition joined (n : string) (p : list string) : string := fold_left under p n.

(* ---------- C120: included nodes ---------- *)

Lemma inst_leaves : forall comps,
  (forall n c req N L G, inst comps n c req N L G ->
     forall name nd, In (name, nd) N <-> exists p, leaf_at comps c p nd /\ name = joined n p) /\
  (forall n ns N L G, inst_nodes comps n ns N L G ->
     forall name nd, In (name, nd) N <->
       (exists x, In (x, nd) ns /\ dget "include" nd = None /\ name = under n x) \/
       (exists x rq d p, In (x, rq) ns /\ dget "include" rq = Some (VStr d) /\ leaf_at comps d p nd /\ name = joined (under n x) p)).
Proof.
  intros comps. apply inst_mutind.
  - intros n c req cc N L own G g E H IH _ _ name nd. rewrite IH. split.
    + intros [[x [I [J ->]]]|[x [rq [d [p [I [J [K ->]]]]]]]].
      * exists [x]. split; [econstructor; eauto|auto].
      * exists (x :: p). split; [|auto]. apply la_nested with (d := d); auto. exists cc, rq. auto.
    + intros [p [K ->]]. inversion K as [c' cc' x nd' E' I J|c' x d p' nd' [cc' [rq [E' [I J]]]] K']; subst.
      * left. rewrite E in E'. injection E' as <-. exists x. auto.
      * right. rewrite E in E'. injection E' as <-. exists x, rq, d, p'. auto.
  - intros n name nd. split; [intros []|]. intros [[x [[] _]]|[x [rq [d [p [[] _]]]]]].
  - intros n x nd r N L G E _ _ IH name nd'. split.
    + intros [Q|I]; [injection Q as <- <-; left; exists x; split; [left; auto|auto]|].
      apply IH in I. destruct I as [[y [I J]]|[y [rq [d [p [I J]]]]]]; [left; exists y|right; exists y, rq, d, p]; (split; [right; auto|auto]).
    + intros [[y [[Q|I] [J ->]]]|[y [rq [d [p [[Q|I] [J K]]]]]]].
      * injection Q as <- <-. left. auto.
      * right. apply IH. left. eauto.
      * injection Q as <- <-. congruence.
      * right. apply IH. right. eauto 10.
  - intros n x rq c r N1 L1 G1 N2 L2 G2 E _ _ IH1 _ IH2 name nd. rewrite in_app_iff, IH1, IH2. split.
    + intros [[p [K ->]]|[[y [I J]]|[y [rq' [d [p [I J]]]]]]].
      * right. exists x, rq, c, p. split; [left; auto|auto].
      * left. exists y. split; [right; auto|auto].
      * right. exists y, rq', d, p. split; [right; auto|auto].
    + intros [[y [[Q|I] [J K]]]|[y [rq' [d [p [[Q|I] [J [K Q']]]]]]]].
      * injection Q as <- <-. congruence.
      * right. left. eauto.
      * injection Q as <- <-. rewrite E in J. injection J as <-. left. eauto.
      * right. right. eauto 10.
Qed.

Lemma insts_leaves : forall comps ns N L G, insts comps ns N L G -> forall name nd, In (name, nd) N <->
  exists n rq c p, In (n, rq) ns /\ dget "include" rq = Some (VStr c) /\ leaf_at comps c p nd /\ name = joined n p.
Proof.
  intros comps ns N L G H. induction H as [|n nd0 r N L G E H IH|n nd0 c r N1 L1 G1 N2 L2 G2 E I0 H IH]; intros name nd.
  - split; [intros []|]. intros [n [rq [c [p [[] _]]]]].
  - rewrite IH. split.
    + intros [m [rq [c [p [I J]]]]]. exists m, rq, c, p. split; [right; auto|auto].
    + intros [m [rq [c [p [[Q|I] [J K]]]]]]; [injection Q as <- <-; congruence|eauto 10].
  - rewrite in_app_iff, IH. rewrite (proj1 (inst_leaves comps) _ _ _ _ _ _ I0). split.
    + intros [[p [K ->]]|[m [rq [d [p [I J]]]]]].
      * exists n, nd0, c, p. split; [left; auto|auto].
      * exists m, rq, d, p. split; [right; auto|auto].
    + intros [m [rq [d [p [[Q|I] [J [K ->]]]]]]].
      * injection Q as <- <-. rewrite E in J. injection J as <-. left. eauto.
      * right. eauto 10.
Qed.

(* After an expansion without an error, a node is either a node of the original topology that is not an
   include request, or a node found in an included component; its name consists of the name of the
   include request and the names on the path to the node. *)
Theorem included_nodes_exact : forall start comps fuel t t', comps_wf comps ->
  NoDup (dkeys (t_nodes t)) -> NoDup (dkeys (t_groups t)) -> (forall n nd, In (n, nd) (t_nodes t) -> NoDup (dkeys nd)) ->
  expand_topology start comps fuel t = Done t' -> t_errs t' = [] ->
  forall name nd, dget name (t_nodes t') = Some nd <->
    (dget name (t_nodes t) = Some nd /\ dget "include" nd = None) \/
    exists n rq c p, dget n (t_nodes t) = Some rq /\ dget "include" rq = Some (VStr c) /\
      leaf_at comps c p nd /\ name = joined n p.
Proof.
  intros start comps fuel t t' W N1 N2 Wn H Z name nd.
  destruct (components_exact start comps fuel t t' W N1 N2 Wn H Z) as [N [L [G [M [J1 [J2 [_ [_ [_ [J6 _]]]]]]]]]].
  assert (E : dget name (t_nodes t') = Some nd <-> In (name, nd) (t_nodes t')).
  { split; [apply dget_In|apply dget_NoDup; auto]. }
  rewrite E, J2, in_app_iff, filter_In, (insts_leaves _ _ _ _ _ J1). unfold is_request, dmem. cbn [snd]. split.
  - intros [[I R]|[n [rq [c [p [I K]]]]]].
    + left. split; [apply dget_NoDup; auto|]. destruct (dget "include" nd); [discriminate|auto].
    + right. exists n, rq, c, p. split; [apply dget_NoDup; auto|auto].
  - intros [[I R]|[n [rq [c [p [I K]]]]]].
    + left. split; [apply dget_In; auto|]. rewrite R. auto.
    + right. exists n, rq, c, p. split; [apply dget_In; auto|auto].
Qed.

(* ---------- names ---------- *)

Lemma inst_idents : forall comps,
  (forall n c req N L G, inst comps n c req N L G -> forall kv, In kv N -> ident (fst kv)) /\
  (forall n ns N L G, inst_nodes comps n ns N L G -> forall kv, In kv N -> ident (fst kv)).
Proof.
  intros comps. apply inst_mutind.
  - intros n c req cc N L own G g _ _ IH _ _. exact IH.
  - intros n kv [].
  - intros n x nd r N L G _ I _ IH kv [<-|J]; auto.
  - intros n x nd c r N1 L1 G1 N2 L2 G2 _ _ _ IH1 _ IH2 kv I. apply in_app_iff in I. destruct I; auto.
Qed.

Lemma under_length : forall n x, String.length (under n x) = String.length n + 1 + String.length x.
Proof.
  intros n x. unfold under. induction n as [|c n IH]; cbn; auto.
Qed.

(* The name of every included node is an identifier with at most 16 characters; the limit does not depend
   on any topology setting. *)
Theorem included_name_limit : forall start comps fuel t t', comps_wf comps ->
  NoDup (dkeys (t_nodes t)) -> NoDup (dkeys (t_groups t)) -> (forall n nd, In (n, nd) (t_nodes t) -> NoDup (dkeys nd)) ->
  expand_topology start comps fuel t = Done t' -> t_errs t' = [] ->
  forall n rq c p nd, dget n (t_nodes t) = Some rq -> dget "include" rq = Some (VStr c) -> leaf_at comps c p nd ->
  ident (joined n p).
Proof.
  intros start comps fuel t t' W N1 N2 Wn H Z n rq c p nd G I K.
  destruct (components_exact start comps fuel t t' W N1 N2 Wn H Z) as [N [L [Gr [M [J1 _]]]]].
  assert (Q : In (joined n p, nd) N) by (apply (insts_leaves _ _ _ _ _ J1); apply dget_In in G; eauto 10).
  clear - J1 Q. induction J1 as [|m nd0 r N L G E H IH|m nd0 c r N1 L1 G1 N2 L2 G2 E I0 H IH]; [destruct Q|auto|].
  apply in_app_iff in Q. destruct Q as [Q|Q]; auto.
  apply (proj1 (inst_idents comps) _ _ _ _ _ _ I0) in Q. exact Q.
Qed.

(* ---------- validated components ---------- *)

Lemma node_bodies_spec : forall l ds e, node_bodies l = (ds, e) -> forall x nd, In (x, nd) ds ->
  dget "name" nd = Some (VStr x) /\ ((forall k v, In (k, v) l -> dwf v) -> NoDup (dkeys nd)).
Proof.
  induction l as [|[k v] l IH]; intros ds e H x nd I; cbn [node_bodies] in H.
  - injection H as <- _. destruct I.
  - destruct (node_body k v) as [d e1] eqn:B. destruct (node_bodies l) as [ds' e2] eqn:E. injection H as <- _.
    destruct I as [Q|I].
    + injection Q as <- <-. unfold set_interfaces. split.
      * rewrite dget_dset_other by discriminate. unfold node_body in B.
        destruct v; injection B as <- _; try reflexivity. apply dget_dset_same.
      * intros W. apply NoDup_dset. unfold node_body in B. destruct v as [|b|z|s|l0|d0]; injection B as <- _;
          try (cbn; repeat constructor; cbn; intuition discriminate).
        apply NoDup_dset. assert (Q : dwf (VDict d0)) by (apply (W k); left; auto). inversion Q; auto.
    + destruct (IH _ _ eq_refl _ _ I) as [I1 I2]. split; auto. intros W. apply I2. intros k0 v0 J. apply (W k0). right. auto.
Qed.

Lemma list_nodes_dwf : forall l acc d e, list_nodes l acc = (Some d, e) -> (forall x, In x l -> dwf x) ->
  (forall k v, In (k, v) acc -> dwf v) -> forall k v, In (k, v) d -> dwf v.
Proof.
  assert (S : forall s w (acc : dict val) , dwf w -> (forall k v, In (k, v) acc -> dwf v) -> forall k v, In (k, v) (dset s w acc) -> dwf v).
  { intros s w acc Ww. induction acc as [|[a b] acc IH]; intros A k v I; cbn [dset] in I.
    - destruct I as [Q|[]]. injection Q as <- <-. auto.
    - destruct (String.eqb s a).
      + destruct I as [Q|I]; [injection Q as <- <-; auto|]. apply (A k). right. auto.
      + destruct I as [Q|I]; [injection Q as <- <-; apply (A a); left; auto|]. eapply IH; [|eauto]. intros x y J. apply (A x). right. auto. }
  induction l as [|x l IH]; intros acc d e H W A; cbn [list_nodes] in H.
  - injection H as <- _. auto.
  - assert (W' : forall y, In y l -> dwf y) by (intros y I; apply W; right; auto).
    destruct x as [| | |s| |nd]; try discriminate.
    + eapply IH; [exact H|auto|]. apply S; auto. constructor; [repeat constructor; intros []|].
      intros k v [Q|[]]. injection Q as <- <-. constructor.
    + destruct (dget "name" nd) as [[| | |s| |]|]; try discriminate.
      * eapply IH; [exact H|auto|]. apply S; auto. apply W. left. auto.
      * destruct (list_nodes l acc) as [o e'] eqn:E. injection H as -> _. eapply IH; eauto.
Qed.

Lemma node_dict_spec : forall v ds e, create_node_dict v = (Some ds, e) -> forall x nd, In (x, nd) ds ->
  dget "name" nd = Some (VStr x) /\ (dwf v -> NoDup (dkeys nd)).
Proof.
  intros v ds e H x nd I. unfold create_node_dict in H. destruct v as [|b|z|s|l|d].
  1-3: match type of H with (if ?b then _ else _) = _ => destruct b end; try discriminate; injection H as <- _; destruct I.
  - destruct (list_nodes (map _ _) []) as [[d|] e1] eqn:E; [|discriminate]. destruct (node_bodies d) as [ds' e2] eqn:B.
    injection H as <- _. destruct (node_bodies_spec _ _ _ B _ _ I) as [H1 H2]. split; auto. intros W. apply H2.
    eapply list_nodes_dwf; [exact E| |intros k v []]. intros y J. apply in_map_iff in J. destruct J as [c [<- _]]. constructor.
  - destruct (list_nodes l []) as [[d|] e1] eqn:E; [|discriminate]. destruct (node_bodies d) as [ds' e2] eqn:B.
    injection H as <- _. destruct (node_bodies_spec _ _ _ B _ _ I) as [H1 H2]. split; auto. intros W. apply H2.
    eapply list_nodes_dwf; [exact E| |intros k v []]. intros y J. eapply dwf_In; eauto.
  - destruct (node_bodies d) as [ds' e2] eqn:B. injection H as <- _.
    destruct (node_bodies_spec _ _ _ B _ _ I) as [H1 H2]. split; auto. intros W. apply H2. inversion W; auto.
Qed.

Lemma comp_data_wf : forall (v : val), dwf v -> NoDup (dkeys (match v with VDict d => d | _ => [] end)) /\
  forall a b, In (a, b) (match v with VDict d => d | _ => [] end) -> dwf b.
Proof.
  intros v W. destruct W as [| | | | |d W1 W2]; [split; [exact (NoDup_nil _)|intros ? ? []]..|]. split; [exact W1|exact W2].
Qed.

Lemma validate_component_spec : forall k v c e, validate_component k v = (Some c, e) ->
  (dwf v -> comp_wf c) /\ forall x nd, In (x, nd) (c_nodes c) -> dget "name" nd = Some (VStr x).
Proof.
  intros k v c e H. unfold validate_component in H. set (d := match v with VDict d => d | _ => [] end) in *. cbv zeta in H.
  assert (Wd : dwf v -> NoDup (dkeys d) /\ forall a b, In (a, b) d -> dwf b).
  { exact (comp_data_wf v). }
  destruct (dget "nodes" d) as [n|] eqn:Gn.
  - destruct (create_node_dict n) as [[ns|] e1] eqn:C; [|discriminate].
    destruct (match dget "links" d with Some l => _ | None => _ end) as [ls e2]. injection H as <- _. split.
    + intros W. destruct (Wd W) as [D1 D2]. split; cbn [c_attrs c_nodes].
      * apply Dev_Props.NoDup_dpop, Dev_Props.NoDup_dpop. auto.
      * intros x nd I. apply (node_dict_spec _ _ _ C _ _ I). apply dget_In in Gn. eauto.
    + intros x nd I. apply (node_dict_spec _ _ _ C _ _ I).
  - destruct (match dget "links" d with Some l => _ | None => _ end) as [ls e2]. injection H as <- _. split.
    + intros W. destruct (Wd W) as [D1 D2]. split; cbn [c_attrs c_nodes]; [apply Dev_Props.NoDup_dpop, Dev_Props.NoDup_dpop; auto|intros x nd []].
    + intros x nd [].
Qed.

Lemma validate_components_spec : forall l cs e, validate_components l = (Some cs, e) ->
  ((forall k v, In (k, v) l -> dwf v) -> comps_wf cs) /\
  forall k c, dget k cs = Some c -> forall x nd, In (x, nd) (c_nodes c) -> dget "name" nd = Some (VStr x).
Proof.
  induction l as [|[k v] l IH]; intros cs e H; cbn [validate_components] in H.
  - injection H as <- _. split; [intros _ k c K; discriminate|intros k c K; discriminate].
  - destruct (validate_component k v) as [[c|] e1] eqn:V; [|discriminate].
    destruct (validate_components l) as [[cs'|] e2] eqn:VS; [|discriminate]. injection H as <- _.
    destruct (IH _ _ eq_refl) as [I1 I2]. destruct (validate_component_spec _ _ _ _ V) as [V1 V2]. split.
    + intros W k0 c0 G. cbn in G. destruct (String.eqb k0 k).
      * injection G as <-. apply V1. apply (W k). left. auto.
      * eapply I1; [|exact G]. intros a b J. apply (W a). right. auto.
    + intros k0 c0 G. cbn in G. destruct (String.eqb k0 k); [injection G as <-; auto|eauto].
Qed.

Lemma leaf_at_name : forall comps, (forall k c, dget k comps = Some c -> forall x nd, In (x, nd) (c_nodes c) -> dget "name" nd = Some (VStr x)) ->
  forall c p nd, leaf_at comps c p nd -> exists x q, p = q ++ [x] /\ dget "name" nd = Some (VStr x).
Proof.
  intros comps H c p nd K. induction K as [c cc x nd E I J|c x d p nd N K IH].
  - exists x, []. split; auto. eapply H; eauto.
  - destruct IH as [y [q [-> G]]]. exists y, (x :: q). auto.
Qed.

Lemma joined_length : forall p n, p <> [] -> exists m, joined n p = under m (last p "") .
Proof.
  induction p as [|x p IH]; intros n H; [congruence|]. destruct p as [|y p].
  - exists n. reflexivity.
  - destruct (IH (under n x)) as [m E]; [discriminate|]. exists m. exact E.
Qed.

(* The name attribute of an included node is its name within the component, so it never equals the name of
   the node in the topology, and nodes from different instances have the same name attribute. *)
Theorem included_name_attribute : forall fuel start components t t', 
  expand_components fuel start components t = Some (Done t') ->
  (forall k v, In (k, v) components -> dwf v) ->
  NoDup (dkeys (t_nodes t)) -> NoDup (dkeys (t_groups t)) -> (forall n nd, In (n, nd) (t_nodes t) -> NoDup (dkeys nd)) ->
  t_errs t' = [] ->
  forall name nd, dget name (t_nodes t') = Some nd ->
    (dget name (t_nodes t) = Some nd /\ dget "include" nd = None) \/
    exists m x, name = under m x /\ dget "name" nd = Some (VStr x) /\ name <> x.
Proof.
  intros fuel start components t t' H W N1 N2 Wn Z name nd G. unfold expand_components in H.
  destruct (validate_components components) as [[cs|] [|e es]] eqn:V; try discriminate. injection H as H.
  destruct (validate_components_spec _ _ _ V) as [V1 V2].
  apply (included_nodes_exact start cs fuel t t' (V1 W) N1 N2 Wn H Z) in G.
  destruct G as [G|[n [rq [c [p [G1 [G2 [G3 ->]]]]]]]]; auto. right.
  destruct (leaf_at_name cs V2 _ _ _ G3) as [x [q [-> K]]].
  destruct (joined_length (q ++ [x]) n) as [m E]; [destruct q; discriminate|].
  rewrite last_last in E. exists m, x. rewrite E. split; [auto|]. split; [auto|].
  intros Q. assert (L : String.length (under m x) = String.length x) by congruence. rewrite under_length in L. lia.
Qed.

(* ---------- C121: groups ---------- *)

Definition members_attr (g : dict val) (m : string) : Prop :=
  exists l, dget "members" g = Some (VList l) /\ In (VStr m) l.

(* [m] is a direct or an indirect member of the group *)
Inductive in_group (groups : list (string * dict val)) : string -> string -> Prop :=
| ig_direct : forall gn g m, In (gn, g) groups -> members_attr g m -> in_group groups gn m
| ig_nested : forall gn g gn' m, In (gn, g) groups -> members_attr g gn' -> in_group groups gn' m -> in_group groups gn m.

Lemma in_group_incl : forall g1 g2 gn m, (forall x, In x g1 -> In x g2) -> in_group g1 gn m -> in_group g2 gn m.
Proof.
  intros g1 g2 gn m I H. induction H; [eapply ig_direct; eauto|eapply ig_nested; eauto].
Qed.

(* nothing overrides the list of members *)
Definition no_members (comps : dict comp) : Prop :=
  forall c cc, dget c comps = Some cc -> dget "members" (c_attrs cc) = None /\
    forall x nd, In (x, nd) (c_nodes cc) -> dget "members" nd = None.

Lemma inst_groups : forall comps, no_members comps ->
  (forall n c req N L G, inst comps n c req N L G -> dget "members" req = None ->
     (exists g, In (("inc_" ++ n)%string, g) G) /\ forall kv, In kv N -> in_group G ("inc_" ++ n) (fst kv)) /\
  (forall n ns N L G, inst_nodes comps n ns N L G -> (forall x nd, In (x, nd) ns -> dget "members" nd = None) ->
     forall kv, In kv N -> (exists x nd, In (x, nd) ns /\ group_member n (x, nd) (fst kv)) \/
       exists x nd m, In (x, nd) ns /\ group_member n (x, nd) m /\ in_group G m (fst kv)).
Proof.
  intros comps NM. apply inst_mutind.
  - intros n c req cc N L own G g E _ IH _ [ms [F GA]] R. destruct (NM _ _ E) as [NM1 NM2]. split.
    + exists g. apply in_or_app. right. left. auto.
    + assert (MA : forall x nd m, In (x, nd) (c_nodes cc) -> group_member n (x, nd) m -> members_attr g m).
      { intros x nd m I GM. exists (map VStr ms). rewrite GA, R, NM1. cbn. split; [auto|]. apply in_map.
        clear - F I GM. induction F as [|a b l l' H F IHF]; [destruct I|]. destruct I as [->|I]; [|right; auto].
        left. destruct H as [[H1 H2]|[H1 H2]], GM as [[G1 G2]|[G1 G2]]; cbn [fst snd] in *; congruence. }
      intros kv I. destruct (IH NM2 kv I) as [[x [nd [J K]]]|[x [nd [m [J [K Q]]]]]].
      * eapply ig_direct; [apply in_or_app; right; left; reflexivity|]. eapply MA; eauto.
      * eapply ig_nested; [apply in_or_app; right; left; reflexivity|eapply MA; eauto|].
        eapply in_group_incl; [|exact Q]. intros y Y. apply in_or_app. auto.
  - intros n _ kv [].
  - intros n x nd r N L G E _ _ IH W kv [<-|I].
    + left. exists x, nd. split; [left; auto|]. left. auto.
    + destruct (IH (fun a b J => W a b (or_intror J)) kv I) as [[y [z [J K]]]|[y [z [m [J K]]]]].
      * left. exists y, z. split; [right; auto|auto].
      * right. exists y, z, m. split; [right; auto|auto].
  - intros n x nd c r N1 L1 G1 N2 L2 G2 E _ _ IH1 _ IH2 W kv I. apply in_app_iff in I. destruct I as [I|I].
    + right. exists x, nd, ("inc_" ++ under n x)%string. split; [left; auto|]. split.
      * right. cbn [fst snd]. split; [congruence|auto].
      * destruct (IH1 (W x nd (or_introl eq_refl))) as [_ K]. eapply in_group_incl; [|exact (K kv I)].
        intros y Y. apply in_or_app. auto.
    + destruct (IH2 (fun a b J => W a b (or_intror J)) kv I) as [[y [z [J K]]]|[y [z [m [J [K Q]]]]]].
      * left. exists y, z. split; [right; auto|auto].
      * right. exists y, z, m. split; [right; auto|]. split; [auto|]. eapply in_group_incl; [|exact Q].
        intros w Y. apply in_or_app. auto.
Qed.

(* Every node included by a request is a direct or an indirect member of the group of that request. *)
Theorem included_nodes_grouped : forall start comps fuel t t', comps_wf comps -> no_members comps ->
  NoDup (dkeys (t_nodes t)) -> NoDup (dkeys (t_groups t)) -> (forall n nd, In (n, nd) (t_nodes t) -> NoDup (dkeys nd)) ->
  expand_topology start comps fuel t = Done t' -> t_errs t' = [] ->
  forall n rq c p nd, dget n (t_nodes t) = Some rq -> dget "include" rq = Some (VStr c) -> dget "members" rq = None ->
  leaf_at comps c p nd -> in_group (t_groups t') ("inc_" ++ n) (joined n p).
Proof.
  intros start comps fuel t t' W NM N1 N2 Wn H Z n rq c p nd G I R K.
  destruct (components_exact start comps fuel t t' W N1 N2 Wn H Z) as [N [L [Gr [M [J1 [_ [_ [_ [J5 _]]]]]]]]].
  rewrite J5. apply in_group_incl with (g1 := Gr); [intros x X; apply in_or_app; auto|]. apply dget_In in G. clear - NM J1 G I R K.
  induction J1 as [|m nd0 r N L G0 E H IH|m nd0 d r M1 L1 G1 M2 L2 G2 E I0 H IH]; [destruct G| |].
  - destruct G as [Q|G]; [injection Q as <- <-; congruence|auto].
  - destruct G as [Q|G].
    + injection Q as <- <-. rewrite E in I. injection I as <-.
      apply in_group_incl with (g1 := G1); [intros x X; apply in_or_app; auto|].
      destruct (proj1 (inst_groups comps NM) _ _ _ _ _ _ I0 R) as [_ Q].
      apply (Q (joined m p, nd)). apply (proj1 (inst_leaves comps) _ _ _ _ _ _ I0). eauto.
    + apply in_group_incl with (g1 := G2); [intros x X; apply in_or_app; auto|auto].
Qed.

Lemma inst_own_group : forall comps n c req N L G, inst comps n c req N L G ->
  exists cc g, dget c comps = Some cc /\ In (("inc_" ++ n)%string, g) G /\ group_of n req cc g.
Proof.
  intros comps n c req N L G H. destruct H as [n c req cc N L own G g E _ _ GA]. exists cc, g.
  split; [auto|]. split; [apply in_or_app; right; left; auto|auto].
Qed.

(* The group of an include request: an attribute of the request replaces the attribute of the component,
   which replaces the list of members. *)
Theorem included_group_exact : forall start comps fuel t t', comps_wf comps ->
  NoDup (dkeys (t_nodes t)) -> NoDup (dkeys (t_groups t)) -> (forall n nd, In (n, nd) (t_nodes t) -> NoDup (dkeys nd)) ->
  expand_topology start comps fuel t = Done t' -> t_errs t' = [] ->
  forall n rq c, dget n (t_nodes t) = Some rq -> dget "include" rq = Some (VStr c) ->
  exists cc g, dget c comps = Some cc /\ dget ("inc_" ++ n) (t_groups t') = Some g /\ group_of n rq cc g.
Proof.
  intros start comps fuel t t' W N1 N2 Wn H Z n rq c G I.
  destruct (components_exact start comps fuel t t' W N1 N2 Wn H Z) as [N [L [Gr [M [J1 [_ [_ [_ [J5 [_ J7]]]]]]]]]].
  assert (Q : exists cc g, dget c comps = Some cc /\ In (("inc_" ++ n)%string, g) Gr /\ group_of n rq cc g).
  { apply dget_In in G. clear - J1 G I.
    induction J1 as [|m nd0 r N L G0 E H IH|m nd0 d r M1 L1 G1 M2 L2 G2 E I0 H IH]; [destruct G| |].
    - destruct G as [Q|G]; [injection Q as <- <-; congruence|auto].
    - destruct G as [Q|G].
      + injection Q as <- <-. rewrite E in I. injection I as <-.
        destruct (inst_own_group _ _ _ _ _ _ _ I0) as [cc [g [A [B C]]]]. exists cc, g.
        split; [auto|]. split; [apply in_or_app; auto|auto].
      + destruct (IH G) as [cc [g [A [B C]]]]. exists cc, g. split; [auto|]. split; [apply in_or_app; auto|auto]. }
  destruct Q as [cc [g [A [B C]]]]. exists cc, g. split; [auto|]. split; [|auto].
  apply dget_NoDup; auto. rewrite J5. apply in_or_app. auto.
Qed.

(* ---------- C122: nested components ---------- *)

(* component [d] is nested in component [c] *)
Definition needs (comps : dict comp) (d c : string) : Prop := exists x, nested comps c x d.

Lemma inst_acc : forall comps,
  (forall n c req N L G, inst comps n c req N L G -> Acc (needs comps) c) /\
  (forall n ns N L G, inst_nodes comps n ns N L G ->
     forall x nd d, In (x, nd) ns -> dget "include" nd = Some (VStr d) -> Acc (needs comps) d).
Proof.
  intros comps. apply inst_mutind.
  - intros n c req cc N L own G g E _ IH _ _. constructor. intros d [x [cc' [nd [E' [I J]]]]].
    rewrite E in E'. injection E' as <-. eauto.
  - intros n x nd d [].
  - intros n x nd r N L G E _ _ IH y nd' d [Q|I] J; [injection Q as <- <-; congruence|eauto].
  - intros n x nd c r N1 L1 G1 N2 L2 G2 E _ _ IH1 _ IH2 y nd' d [Q|I] J; [injection Q as <- <-|eauto].
    rewrite E in J. injection J as <-. auto.
Qed.

(* An expansion without an error never meets a component that is nested in itself, directly or through
   other components. *)
Theorem includes_well_founded : forall start comps fuel t t', comps_wf comps ->
  NoDup (dkeys (t_nodes t)) -> NoDup (dkeys (t_groups t)) -> (forall n nd, In (n, nd) (t_nodes t) -> NoDup (dkeys nd)) ->
  expand_topology start comps fuel t = Done t' -> t_errs t' = [] ->
  forall n rq c, dget n (t_nodes t) = Some rq -> dget "include" rq = Some (VStr c) -> Acc (needs comps) c.
Proof.
  intros start comps fuel t t' W N1 N2 Wn H Z n rq c G I.
  destruct (components_exact start comps fuel t t' W N1 N2 Wn H Z) as [N [L [Gr [M [J1 _]]]]].
  apply dget_In in G. clear - J1 G I.
  induction J1 as [|m nd0 r N L G0 E H IH|m nd0 d r M1 L1 G1 M2 L2 G2 E I0 H IH]; [destruct G| |].
  - destruct G as [Q|G]; [injection Q as <- <-; congruence|auto].
  - destruct G as [Q|G]; [|auto]. injection Q as <- <-. rewrite E in I. injection I as <-.
    apply (proj1 (inst_acc comps) _ _ _ _ _ _ I0).
Qed.

(* fuel [k] is enough for component [c] *)
Definition enough (start : Z) (comps : dict comp) (k : nat) (c : string) : Prop :=
  forall cc f n nd t, dget c comps = Some cc -> k <= f -> expand_include start comps f n nd cc t <> OutOfFuel.

Lemma include_nodes_enough : forall start comps f ns n t,
  (forall x nd d, In (x, nd) ns -> dget "include" nd = Some (VStr d) -> exists k, k <= f /\ enough start comps k d) ->
  include_nodes comps (expand_include start comps f) n ns t <> OutOfFuel.
Proof.
  induction ns as [|[x nd] ns IH]; intros n t H; cbn [include_nodes]; [discriminate|].
  assert (IH' : forall t, include_nodes comps (expand_include start comps f) n ns t <> OutOfFuel).
  { intros t0. apply IH. intros y nd' d I. apply (H y). right. auto. }
  destruct (dmem (sub_name n x) _); [auto|]. destruct (dget "include" nd) as [v|] eqn:E.
  - destruct (validate_include comps v) as [cc|] eqn:V; [|auto].
    destruct v as [| | |d| |]; try discriminate V. cbn [validate_include] in V.
    destruct (H x nd d (or_introl eq_refl) E) as [k [K1 K2]].
    destruct (expand_include start comps f (sub_name n x) nd cc _) as [t1| |] eqn:R; [auto|discriminate|].
    exfalso. eapply K2; eauto.
  - cbv zeta. destruct (Nat.ltb MAX_NODE_ID _); [discriminate|auto].
Qed.

Lemma common_fuel : forall start comps (ns : list (string * node)),
  (forall x nd d, In (x, nd) ns -> dget "include" nd = Some (VStr d) -> exists k, enough start comps k d) ->
  exists m, forall x nd d, In (x, nd) ns -> dget "include" nd = Some (VStr d) -> exists k, k <= m /\ enough start comps k d.
Proof.
  intros start comps. induction ns as [|[x nd] ns IH]; intros H; [exists 0; intros x nd d []|].
  destruct IH as [m M]; [intros y z d I; apply (H y); right; auto|].
  assert (K : exists k0, forall d, dget "include" nd = Some (VStr d) -> enough start comps k0 d).
  { destruct (dget "include" nd) as [[| | |d| |]|] eqn:E; try (exists 0; intros; discriminate).
    destruct (H x nd d (or_introl eq_refl) E) as [k K]. exists k. intros d' Q. injection Q as <-. auto. }
  destruct K as [k0 K]. exists (max k0 m). intros y z d [Q|I] J.
  - injection Q as <- <-. exists k0. split; [lia|auto].
  - destruct (M y z d I J) as [k [A B]]. exists k. split; [lia|auto].
Qed.

Lemma acc_enough : forall start comps c, Acc (needs comps) c -> exists k, enough start comps k c.
Proof.
  intros start comps c A. induction A as [c _ IH].
  destruct (dget c comps) as [cc|] eqn:E; [|exists 0; intros cc f n nd t Q; congruence].
  destruct (common_fuel start comps (c_nodes cc)) as [m M].
  { intros x nd d I J. apply IH. exists x, cc, nd. auto. }
  exists (S m). intros cc' f n nd t Q L. rewrite E in Q. injection Q as <-.
  destruct f as [|f]; [lia|]. cbn [expand_include].
  destruct (include_nodes comps (expand_include start comps f) n (c_nodes cc) t) as [t1| |] eqn:R; [discriminate|discriminate|].
  exfalso. revert R. apply include_nodes_enough. intros x d0 d I J. destruct (M x d0 d I J) as [k [K1 K2]].
  exists k. split; [lia|auto].
Qed.

(* include requests among the nodes *)
Definition requests (t : topo) (c : string) : Prop :=
  exists n nd, In (n, nd) (t_nodes t) /\ dget "include" nd = Some (VStr c).

Lemma In_dset : forall A k (v : A) d x, In x (dset k v d) -> x = (k, v) \/ In x d.
Proof.
  intros A k v. induction d as [|[a b] d IH]; intros x I; cbn in I.
  - destruct I as [<-|[]]. auto.
  - destruct (String.eqb_spec k a) as [->|N].
    + destruct I as [<-|I]; [auto|right; right; auto].
    + destruct I as [<-|I]; [right; left; auto|]. destruct (IH x I); [auto|right; right; auto].
Qed.

Lemma include_links_nodes : forall start n ls t, t_nodes (include_links start n ls t) = t_nodes t.
Proof.
  induction ls as [|l ls IH]; intros t; cbn [include_links]; auto. rewrite IH. auto.
Qed.

Lemma create_group_nodes : forall n nd c t, t_nodes (create_included_group n nd c t) = t_nodes t.
Proof.
  intros n nd c t. unfold create_included_group. destruct (dmem _ _); auto.
Qed.

Lemma include_nodes_requests : forall comps rec, (forall n nd c t t', rec n nd c t = Done t' -> forall x, requests t' x -> requests t x) ->
  forall ns n t t', include_nodes comps rec n ns t = Done t' -> forall x, requests t' x -> requests t x.
Proof.
  intros comps rec HR. induction ns as [|[y nd] ns IH]; intros n t t' H x R; cbn [include_nodes] in H.
  - injection H as <-. auto.
  - set (t0 := if valid_id (sub_name n y) then t else add_err (CBadId (sub_name n y)) t) in *. cbv zeta in H.
    assert (E0 : t_nodes t0 = t_nodes t) by (subst t0; destruct (valid_id _); auto).
    assert (R0 : requests t0 x -> requests t x) by (unfold requests; rewrite E0; auto).
    apply R0. clearbody t0. clear R0 E0 t.
    destruct (dmem (sub_name n y) (t_nodes t0)); [exact (IH _ _ _ H x R)|].
    destruct (dget "include" nd) as [v|] eqn:E.
    + destruct (validate_include comps v) as [cc|]; [|exact (IH _ _ _ H x R)].
      destruct (rec (sub_name n y) nd cc t0) as [t1| |] eqn:R1; try discriminate H.
      eapply HR; [exact R1|]. eapply IH; eauto.
    + destruct (Nat.ltb MAX_NODE_ID _); [discriminate H|].
      destruct (IH _ _ _ H x R) as [m [d [I J]]]. cbn [set_nodes t_nodes] in I. apply In_dset in I.
      destruct I as [Q|I]; [injection Q as -> ->; congruence|]. exists m, d. auto.
Qed.

Lemma expand_include_requests : forall start comps f n nd c t t', expand_include start comps f n nd c t = Done t' ->
  forall x, requests t' x -> requests t x.
Proof.
  intros start comps. induction f as [|f IH]; intros n nd c t t' H x R; cbn [expand_include] in H; [discriminate H|].
  destruct (include_nodes comps (expand_include start comps f) n (c_nodes c) t) as [t1| |] eqn:E; try discriminate H.
  injection H as <-. unfold requests in R. rewrite create_group_nodes, include_links_nodes in R.
  eapply include_nodes_requests; [exact IH|exact E|exact R].
Qed.

Lemma In_dpop : forall A k (d : dict A) x, In x (dpop k d) -> In x d.
Proof.
  intros A k. induction d as [|[a b] d IH]; intros x I; cbn in I; [auto|].
  destruct (String.eqb k a); [right; auto|]. destruct I as [<-|I]; [left; auto|right; auto].
Qed.

Lemma expand_loop_enough : forall start comps f names t,
  (forall c, requests t c -> exists k, k <= f /\ enough start comps k c) -> expand_loop start comps f names t <> OutOfFuel.
Proof.
  induction names as [|n names IH]; intros t H; cbn [expand_loop]; [discriminate|].
  destruct (dget n (t_nodes t)) as [d|] eqn:G; [|auto]. destruct (dget "include" d) as [v|] eqn:E; [|auto].
  cbv zeta. set (t0 := set_nodes (dpop n (t_nodes t)) t).
  assert (S0 : forall x, requests t0 x -> requests t x).
  { intros x [m [nd [I J]]]. exists m, nd. split; [eapply In_dpop; exact I|auto]. }
  destruct (validate_include comps v) as [cc|] eqn:V; [|apply IH; intros c R; apply H, S0; exact R].
  destruct v as [| | |c| |]; try discriminate V. cbn [validate_include] in V.
  destruct (expand_include start comps f n d cc t0) as [t1| |] eqn:R; [|discriminate|].
  - apply IH. intros x Q. apply H, S0. eapply expand_include_requests; eauto.
  - destruct (H c) as [k [K1 K2]]; [exists n, d; split; [apply dget_In; auto|auto]|]. exfalso. eapply K2; eauto.
Qed.

(* Expansion terminates when no requested component is nested in itself. *)
Theorem includes_terminate : forall start comps t,
  (forall n rq c, In (n, rq) (t_nodes t) -> dget "include" rq = Some (VStr c) -> Acc (needs comps) c) ->
  exists k, forall fuel, k <= fuel -> expand_topology start comps fuel t <> OutOfFuel.
Proof.
  intros start comps t H. destruct (common_fuel start comps (t_nodes t)) as [m M].
  { intros x nd d I J. apply acc_enough. eauto. }
  exists m. intros fuel L. apply expand_loop_enough. intros c [n [nd [I J]]].
  destruct (M n nd c I J) as [k [K1 K2]]. exists k. split; [lia|auto].
Qed.

(* A component that includes itself is accepted by the checks, and its expansion does not end. *)
Definition loop_comps : dict val := [("pod", VDict [("nodes", VDict [("a", VDict [("include", VStr "pod")])])])].
Definition loop_topo : topo := mk_topo [("p", [("name", VStr "p"); ("include", VStr "pod")])] [] [] [].

Lemma loop_include : forall start cs cc d, dget "pod" cs = Some cc -> c_nodes cc = [("a", d)] ->
  dget "include" d = Some (VStr "pod") ->
  forall f n nd t, t_nodes t = [] -> expand_include start cs f n nd cc t = OutOfFuel.
Proof.
  intros start cs cc d E N I. induction f as [|f IH]; intros n nd t Z; cbn [expand_include]; [reflexivity|].
  rewrite N. cbn [include_nodes]. cbv zeta.
  set (t0 := if valid_id (sub_name n "a") then t else _).
  assert (E0 : t_nodes t0 = []) by (subst t0; destruct (valid_id _); auto).
  clearbody t0. rewrite E0. cbn [dmem dget]. rewrite I. cbn [validate_include]. rewrite E. rewrite IH; auto.
Qed.

Theorem self_include_refuted : forall fuel, expand_components fuel 1 loop_comps loop_topo = Some OutOfFuel.
Proof.
  intros fuel. unfold expand_components.
  assert (V : exists cs cc d, validate_components loop_comps = (Some cs, []) /\ dget "pod" cs = Some cc /\ c_nodes cc = [("a", d)] /\
            dget "include" d = Some (VStr "pod")).
  { eexists. eexists. eexists. split; [vm_compute; reflexivity|]. split; [vm_compute; reflexivity|].
    split; [cbn; reflexivity|vm_compute; reflexivity]. }
  destruct V as [cs [cc [d [V [G [N I]]]]]]. rewrite V. f_equal. unfold expand_topology, loop_topo.
  change (dkeys (t_nodes _)) with ["p"]. cbn [expand_loop t_nodes dget String.eqb Ascii.eqb Bool.eqb validate_include]. rewrite G.
  rewrite (loop_include 1 cs cc d G N I); auto.
Qed.

(* ---------- examples ---------- *)

(* two instances of a pod; a pod has a router and a nested rack with two switches *)
Definition pod_comps : dict val :=
  [("pod", VDict [("nodes", VDict [("r", VDict [("device", VStr "frr")]); ("k", VDict [("include", VStr "rack")])]);
                  ("ospf", VDict [("cost", VInt 100)])]);
   ("rack", VDict [("nodes", VList [VStr "s1"; VStr "s2"]); ("links", VList [VStr "s1-s2"])])].
Definition pod_topo : topo :=
  mk_topo [("a", [("name", VStr "a"); ("include", VStr "pod")]);
           ("x", [("name", VStr "x")]);
           ("b", [("name", VStr "b"); ("include", VStr "pod"); ("ospf", VDict [("area", VInt 3)])])] [] [] [].

Definition pod_result : topo :=
  match expand_components 3 1 pod_comps pod_topo with Some (Done t) => t | _ => pod_topo end.

Example pod_done : expand_components 3 1 pod_comps pod_topo = Some (Done pod_result) /\ t_errs pod_result = [].
Proof. split; vm_compute; reflexivity. Qed.

Example pod_nodes : dkeys (t_nodes pod_result) = ["x"; "a_r"; "a_k_s1"; "a_k_s2"; "b_r"; "b_k_s1"; "b_k_s2"] /\
  dkeys (t_groups pod_result) = ["inc_a_k"; "inc_a"; "inc_b_k"; "inc_b"] /\ length (t_links pod_result) = 2.
Proof. repeat split; vm_compute; reflexivity. Qed.

(* both instances of the router have the same name attribute *)
Example pod_names : (exists nd, dget "a_r" (t_nodes pod_result) = Some nd /\ dget "name" nd = Some (VStr "r")) /\
  (exists nd, dget "b_r" (t_nodes pod_result) = Some nd /\ dget "name" nd = Some (VStr "r")).
Proof. split; eexists; (split; [vm_compute; reflexivity|vm_compute; reflexivity]). Qed.

(* a switch of the nested rack is an indirect member of the group of the pod *)
Example pod_grouped : in_group (t_groups pod_result) "inc_a" "a_k_s1".
Proof.
  eapply ig_nested with (gn' := "inc_a_k"); [vm_compute; right; left; reflexivity|eexists; split; [reflexivity|right; left; reflexivity]|].
  eapply ig_direct; [vm_compute; left; reflexivity|eexists; split; [reflexivity|left; reflexivity]].
Qed.

(* The attribute of an include request is not merged with the attribute of the component: the OSPF area of
   the request removes the OSPF cost of the component. *)
Theorem request_attribute_refuted : exists g,
  dget "inc_b" (t_groups pod_result) = Some g /\ dget "ospf" g = Some (VDict [("area", VInt 3)]).
Proof. eexists. split; vm_compute; reflexivity. Qed.

(* The name limit: an included node with a 17-character name is an error *)
Example long_name :
  exists t', expand_components 3 1 [("pod", VDict [("nodes", VList [VStr "router"])])]
    (mk_topo [("datacenter", [("name", VStr "datacenter"); ("include", VStr "pod")])] [] [] []) = Some (Done t') /\
  t_errs t' = [CBadId "datacenter_router"].
Proof. eexists. split; vm_compute; reflexivity. Qed.

(* a component that is not a dictionary *)
Example component_type : expand_components 3 1 [("pod", VStr "r")] pod_topo = None.
Proof. vm_compute. reflexivity. Qed.

Print Assumptions components_exact.
Print Assumptions included_nodes_exact.
Print Assumptions included_name_limit.
Print Assumptions included_name_attribute.
Print Assumptions included_nodes_grouped.
Print Assumptions included_group_exact.
Print Assumptions includes_well_founded.
Print Assumptions includes_terminate.
Print Assumptions self_include_refuted.
Print Assumptions request_attribute_refuted.
