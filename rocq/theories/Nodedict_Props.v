(* Property C123: the node dictionary created from the nodes of a topology or a component. *)
From Coq Require Import String Ascii ZArith Lia Bool List.
From Verif Require Import Base Box_Model Lnk_Model Lnkgrp_Props Comp_Model.
Import ListNotations.
Local Open Scope string_scope.
Local Open Scope list_scope.

(* ---------- specification ---------- *)

(* the data of node [name] created from its original data *)
Inductive node_data (name : string) : val -> node -> Prop :=
| nd_null : forall nd, dget "name" nd = Some (VStr name) -> dget "interfaces" nd = Some (VList []) ->
    (forall k, k <> "name" -> k <> "interfaces" -> dget k nd = None) -> node_data name VNull nd
| nd_dict : forall d nd, dget "name" nd = Some (VStr name) ->
    (forall x, dget "interfaces" d = Some x -> truthy x = true -> dget "interfaces" nd = Some x) ->
    ((forall x, dget "interfaces" d = Some x -> truthy x = false) -> dget "interfaces" nd = Some (VList [])) ->
    (forall k, k <> "name" -> k <> "interfaces" -> dget k nd = dget k d) -> node_data name (VDict d) nd.

(* an element of a list of nodes: the node name and the data *)
Inductive list_item : val -> string -> val -> Prop :=
| li_str : forall s, list_item (VStr s) s (VDict [("name", VStr s)])
| li_dict : forall d s, dget "name" d = Some (VStr s) -> list_item (VDict d) s (VDict d).

(* the names in the order of their first appearance *)
Inductive first_seen : list string -> list string -> list string -> Prop :=
| fs_nil : forall seen, first_seen seen [] []
| fs_new : forall seen x l m, ~ In x seen -> first_seen (x :: seen) l m -> first_seen seen (x :: l) (x :: m)
| fs_old : forall seen x l m, In x seen -> first_seen seen l m -> first_seen seen (x :: l) m.

(* [v] is the last value for the name *)
Definition last_value (items : list (string * val)) (name : string) (v : val) : Prop :=
  exists a b, items = a ++ (name, v) :: b /\ forall w, ~ In (name, w) b.

(* ---------- proofs ---------- *)

Lemma set_interfaces_get : forall d k, k <> "interfaces" -> dget k (set_interfaces d) = dget k d.
Proof. intros d k H. unfold set_interfaces. apply dget_dset_other. auto. Qed.

Lemma node_body_data : forall k v d, node_body k v = (d, []) -> node_data k v (set_interfaces d).
Proof.
  intros k v d H. destruct v as [| | | | |d0]; cbn [node_body] in H; try discriminate H; injection H as <-.
  - constructor; [reflexivity|reflexivity|]. intros x X Y. unfold set_interfaces. rewrite dget_dset_other by auto.
    cbn. destruct (String.eqb_spec x "name"); [congruence|auto].
  - assert (E : dget "interfaces" (dset "name" (VStr k) d0) = dget "interfaces" d0) by (apply dget_dset_other; discriminate).
    constructor.
    + rewrite set_interfaces_get by discriminate. apply dget_dset_same.
    + intros x G T. unfold set_interfaces. rewrite dget_dset_same, E, G, T. auto.
    + intros F. unfold set_interfaces. rewrite dget_dset_same, E. destruct (dget "interfaces" d0) as [x|]; auto.
      rewrite (F x eq_refl). auto.
    + intros x X Y. rewrite set_interfaces_get by auto. apply dget_dset_other. auto.
Qed.

Definition plain (v : val) : Prop := v = VNull \/ exists d, v = VDict d.

Lemma node_bodies_exact : forall l ds e, node_bodies l = (ds, e) ->
  map fst ds = map fst l /\ (e = [] <-> Forall (fun kv => plain (snd kv)) l) /\
  (e = [] -> Forall2 (fun kv kv' => fst kv' = fst kv /\ node_data (fst kv) (snd kv) (snd kv')) l ds).
Proof.
  induction l as [|[k v] l IH]; intros ds e H; cbn [node_bodies] in H.
  - injection H as <- <-. split; [auto|]. split; [split; auto|auto].
  - destruct (node_body k v) as [d e1] eqn:B. destruct (node_bodies l) as [ds' e2] eqn:E. injection H as <- <-.
    destruct (IH _ _ eq_refl) as [I1 [I2 I3]]. split; [cbn; congruence|]. split.
    + split.
      * intros Z. apply app_eq_nil in Z. destruct Z as [-> ->]. constructor; [|apply I2; auto].
        cbn [snd]. destruct v; cbn [node_body] in B; try discriminate B; [left; auto|right; eauto].
      * intros F. inversion F as [|x y P Q]; subst. rewrite (proj2 I2 Q), app_nil_r.
        cbn [snd] in P. destruct P as [->|[d0 ->]]; cbn [node_body] in B; injection B as _ <-; auto.
    + intros Z. apply app_eq_nil in Z. destruct Z as [-> ->]. constructor; [|auto]. cbn [fst snd].
      split; [auto|]. apply node_body_data. auto.
Qed.

(* A dictionary of nodes is accepted exactly when the data of every node is a dictionary or missing; the
   nodes stay in the same order. *)
Theorem node_dict_exact : forall d, exists ds e, create_node_dict (VDict d) = (Some ds, e) /\
  (e = [] <-> Forall (fun kv => plain (snd kv)) d) /\
  (e = [] -> Forall2 (fun kv kv' => fst kv' = fst kv /\ node_data (fst kv) (snd kv) (snd kv')) d ds).
Proof.
  intros d. cbn [create_node_dict]. destruct (node_bodies d) as [ds e] eqn:E. exists ds, e. split; [auto|].
  apply (node_bodies_exact _ _ _ E).
Qed.

Lemma dset_keys_old : forall (k : string) (v : val) d, In k (dkeys d) -> dkeys (dset k v d) = dkeys d.
Proof.
  intros k v. induction d as [|[a b] d IH]; intros I; [destruct I|]. cbn [dset].
  destruct (String.eqb_spec k a) as [->|N]; cbn; [auto|]. f_equal. apply IH. destruct I as [I|I]; [cbn in I; congruence|auto].
Qed.

Lemma dset_keys_new : forall (k : string) (v : val) d, ~ In k (dkeys d) -> dkeys (dset k v d) = dkeys d ++ [k].
Proof.
  intros k v. induction d as [|[a b] d IH]; intros I; [auto|]. cbn [dset].
  destruct (String.eqb_spec k a) as [->|N]; [exfalso; apply I; left; auto|]. cbn. f_equal. apply IH. intros J. apply I. right. auto.
Qed.

Lemma first_seen_perm : forall seen seen' l m, (forall x, In x seen <-> In x seen') -> first_seen seen l m -> first_seen seen' l m.
Proof.
  intros seen seen' l m P H. revert seen' P. induction H as [seen|seen x l m N H IH|seen x l m I H IH]; intros seen' P.
  - constructor.
  - constructor; [rewrite <- P; auto|]. apply IH. intros y. cbn. rewrite P. tauto.
  - apply fs_old; [apply P; auto|auto].
Qed.

Lemma list_nodes_ok : forall l acc d, list_nodes l acc = (Some d, []) ->
  exists items m, Forall2 (fun v kv => list_item v (fst kv) (snd kv)) l items /\ first_seen (dkeys acc) (map fst items) m /\
    dkeys d = dkeys acc ++ m /\
    forall k v, dget k d = Some v <-> last_value items k v \/ ((forall w, ~ In (k, w) items) /\ dget k acc = Some v).
Proof.
  assert (STEP : forall x s w l acc d, list_item x s w -> list_nodes l (dset s w acc) = (Some d, []) ->
    (exists items m, Forall2 (fun v kv => list_item v (fst kv) (snd kv)) l items /\ first_seen (dkeys (dset s w acc)) (map fst items) m /\
      dkeys d = dkeys (dset s w acc) ++ m /\
      forall k v, dget k d = Some v <-> last_value items k v \/ ((forall w, ~ In (k, w) items) /\ dget k (dset s w acc) = Some v)) ->
    exists items m, Forall2 (fun v kv => list_item v (fst kv) (snd kv)) (x :: l) items /\ first_seen (dkeys acc) (map fst items) m /\
      dkeys d = dkeys acc ++ m /\
      forall k v, dget k d = Some v <-> last_value items k v \/ ((forall w, ~ In (k, w) items) /\ dget k acc = Some v)).
  { intros x s w l acc d LI _ [items [m [F [S [K G]]]]].
    assert (G' : forall k v, dget k d = Some v <->
      last_value ((s, w) :: items) k v \/ ((forall u, ~ In (k, u) ((s, w) :: items)) /\ dget k acc = Some v)).
    { intros k v. rewrite G. split.
      - intros [[a [b [-> N]]]|[N D]].
        + left. exists ((s, w) :: a), b. auto.
        + destruct (string_dec k s) as [->|Q].
          * rewrite dget_dset_same in D. injection D as ->. left. exists [], items. auto.
          * rewrite dget_dset_other in D by auto. right. split; [|auto]. intros u [I|I]; [injection I as -> _; congruence|eapply N; eauto].
      - intros [[a [b [E N]]]|[N D]].
        + destruct a as [|y a]; cbn [app] in E.
          * injection E as -> -> <-. right. split; [auto|]. apply dget_dset_same.
          * injection E as _ ->. left. exists a, b. auto.
        + right. split; [intros u I; apply (N u); right; auto|]. rewrite dget_dset_other; auto.
          intros ->. apply (N w). left. auto. }
    destruct (in_dec string_dec s (dkeys acc)) as [I|I].
    - rewrite dset_keys_old in S, K by auto. exists ((s, w) :: items), m. split; [constructor; auto|].
      split; [apply fs_old; auto|]. split; [auto|exact G'].
    - rewrite dset_keys_new in S, K by auto. exists ((s, w) :: items), (s :: m). split; [constructor; auto|].
      split; [apply fs_new; [auto|]; eapply first_seen_perm; [|exact S]; intros y; rewrite in_app_iff; cbn; tauto|].
      split; [rewrite K, <- app_assoc; auto|exact G']. }
  induction l as [|x l IH]; intros acc d H; cbn [list_nodes] in H.
  - injection H as <-. exists [], []. split; [constructor|]. split; [constructor|]. split; [rewrite app_nil_r; auto|].
    intros k v. split; [intros D; right; split; [intros w []|auto]|].
    intros [[a [b [E _]]]|[_ D]]; [destruct a; discriminate E|auto].
  - destruct x as [| | |s| |nd]; try discriminate H.
    + eapply STEP; [constructor|exact H|auto].
    + destruct (dget "name" nd) as [[| | |s| |]|] eqn:E; try discriminate H.
      * eapply STEP; [constructor; exact E|exact H|auto].
      * destruct (list_nodes l acc); discriminate H.
Qed.

Lemma list_nodes_accepts : forall l acc, (forall v, In v l -> exists k w, list_item v k w) ->
  exists d, list_nodes l acc = (Some d, []).
Proof.
  induction l as [|x l IH]; intros acc H; cbn [list_nodes]; [eauto|].
  destruct (H x (or_introl eq_refl)) as [k [w LI]].
  assert (H' : forall v, In v l -> exists k w, list_item v k w) by (intros v I; apply H; right; auto).
  destruct LI as [s|d s E]; [auto|]. rewrite E. auto.
Qed.

Lemma list_values_plain : forall l d, list_nodes l [] = (Some d, []) -> NoDup (dkeys d) -> Forall (fun kv => plain (snd kv)) d.
Proof.
  intros l d H N. destruct (list_nodes_ok _ _ _ H) as [items [m [F [_ [_ G]]]]].
  apply Forall_forall. intros [k v] I. cbn [snd]. apply dget_NoDup in I; auto. apply G in I.
  destruct I as [[a [b [-> _]]]|[_ D]]; [|discriminate D]. apply Forall2_app_inv_r in F.
  destruct F as [l1 [l2 [_ [F _]]]]. inversion F as [|x y l3 l4 LI]; subst. cbn in LI. destruct LI; right; eauto.
Qed.

Lemma first_seen_spec : forall seen l m, first_seen seen l m -> NoDup m /\ (forall x, In x m <-> In x l /\ ~ In x seen).
Proof.
  intros seen l m H. induction H as [seen|seen x l m N H [I1 I2]|seen x l m I H [I1 I2]].
  - split; [constructor|]. intros x. split; [intros []|intros [[] _]].
  - split.
    + constructor; auto. intros J. apply I2 in J. destruct J as [_ J]. apply J. left. auto.
    + intros y. split.
      * intros [->|J]; [split; [left; auto|auto]|]. apply I2 in J. destruct J as [J1 J2]. split; [right; auto|intros K; apply J2; right; auto].
      * intros [[->|J] K]; [left; auto|]. destruct (string_dec x y) as [->|Q]; [left; auto|]. right. apply I2. split; [auto|].
        intros [W|W]; [congruence|auto].
  - split; [auto|]. intros y. rewrite I2. split.
    + intros [J K]. split; [right; auto|auto].
    + intros [[->|J] K]; [contradiction|auto].
Qed.

(* A list of nodes is accepted exactly when every element is a node name or a dictionary with a name; the
   nodes are in the order of first appearance, and the last data of a repeated node is used. *)
Theorem node_list_exact : forall l,
  ((exists ds, create_node_dict (VList l) = (Some ds, [])) <-> forall v, In v l -> exists k w, list_item v k w) /\
  forall ds, create_node_dict (VList l) = (Some ds, []) ->
    exists items, Forall2 (fun v kv => list_item v (fst kv) (snd kv)) l items /\
      first_seen [] (map fst items) (dkeys ds) /\
      forall k nd, dget k ds = Some nd -> exists v, last_value items k v /\ node_data k v nd.
Proof.
  intros l. assert (B : forall d, list_nodes l [] = (Some d, []) -> NoDup (dkeys d)).
  { intros d H. destruct (list_nodes_ok _ _ _ H) as [items [m [_ [S [K _]]]]]. rewrite K. apply (first_seen_spec _ _ _ S). }
  cbn [create_node_dict]. split; [split|].
  - intros [ds H]. destruct (list_nodes l []) as [[d|] e1] eqn:E; [|discriminate].
    destruct (node_bodies d) as [ds' e2]. injection H as _ H. apply app_eq_nil in H. destruct H as [-> _].
    destruct (list_nodes_ok _ _ _ E) as [items [m [F _]]]. clear - F. intros v I.
    induction F as [|x y l l' LI F IH]; [destruct I|]. destruct I as [<-|I]; eauto.
  - intros H. destruct (list_nodes_accepts l [] H) as [d E]. rewrite E. destruct (node_bodies d) as [ds e2] eqn:N.
    exists ds. destruct (node_bodies_exact _ _ _ N) as [_ [Z _]]. rewrite (proj2 Z); [auto|].
    eapply list_values_plain; eauto.
  - intros ds H. destruct (list_nodes l []) as [[d|] e1] eqn:E; [|discriminate].
    destruct (node_bodies d) as [ds' e2] eqn:N. injection H as <- H. apply app_eq_nil in H. destruct H as [-> ->].
    destruct (list_nodes_ok _ _ _ E) as [items [m [F [S [K G]]]]]. destruct (node_bodies_exact _ _ _ N) as [Z1 [_ Z3]].
    exists items. split; [auto|]. split; [unfold dkeys at 1; unfold dkeys in K; rewrite Z1; cbn in K; rewrite K; exact S|].
    intros k nd I. apply dget_In in I. specialize (Z3 eq_refl).
    assert (Q : exists v, In (k, v) d /\ node_data k v nd).
    { clear - Z3 I. induction Z3 as [|[a v] [b w] l l' [P1 P2] F IH]; [destruct I|]. cbn [fst snd] in *. subst b. destruct I as [Q|I].
      - injection Q as <- <-. exists v. split; [left; auto|auto].
      - destruct (IH I) as [v' [J1 J2]]. exists v'. split; [right; auto|auto]. }
    destruct Q as [v [Q1 Q2]]. exists v. split; [|auto]. apply dget_NoDup in Q1; [|eauto]. apply G in Q1.
    destruct Q1 as [Q1|[_ Q1]]; [auto|discriminate Q1].
Qed.

(* A string is a list of its characters: a single node name instead of a list creates one node for every
   character. *)
Theorem node_string_refuted : exists ds, create_node_dict (VStr "r1") = (Some ds, []) /\ dkeys ds = ["r"; "1"].
Proof. eexists. split; vm_compute; reflexivity. Qed.

Example node_list_example : exists ds,
  create_node_dict (VList [VStr "r1"; VDict [("name", VStr "r2"); ("id", VInt 2)]; VDict [("name", VStr "r1"); ("id", VInt 7)]]) = (Some ds, []) /\
  dkeys ds = ["r1"; "r2"] /\ exists nd, dget "r1" ds = Some nd /\ dget "id" nd = Some (VInt 7).
Proof. eexists. split; [vm_compute; reflexivity|]. split; [reflexivity|]. eexists. split; vm_compute; reflexivity. Qed.

Example node_dict_example : exists ds, create_node_dict (VDict [("r1", VNull); ("r2", VDict [("name", VStr "x"); ("id", VInt 2)])]) = (Some ds, []) /\
  exists nd, dget "r2" ds = Some nd /\ dget "name" nd = Some (VStr "r2") /\ dget "id" nd = Some (VInt 2).
Proof. eexists. split; [vm_compute; reflexivity|]. eexists. repeat split; vm_compute; reflexivity. Qed.

Example node_dict_type : exists ds, create_node_dict (VDict [("r1", VStr "frr")]) = (Some ds, [CNodeType "r1"]).
Proof. eexists. vm_compute. reflexivity. Qed.

Print Assumptions node_dict_exact.
Print Assumptions node_list_exact.
Print Assumptions node_string_refuted.
