(* Properties C23-C25: module parameters, effective attributes, module dependencies. *)
From Coq Require Import String ZArith Lia Bool List Permutation.
From Verif Require Import Base Graph Box_Model Box_Props Sort_Model Sort_Props Dev_Model Dev_Props Mod_Model.
Import ListNotations.
Open Scope nat_scope.

(* ---------- C23 ---------- *)

(* sub occurs somewhere in s *)
Definition occurs (sub s : string) : Prop := exists a b, s = (a ++ sub ++ b)%string.

Lemma prefix_spec : forall sub s, prefix sub s = true <-> exists b, s = (sub ++ b)%string.
Proof.
  induction sub as [|c sub IH]; intros s; simpl.
  - split; [exists s; auto|destruct s; auto].
  - destruct s as [|c' s]; simpl; [split; [discriminate|intros [b H]; discriminate]|].
    destruct (Ascii.ascii_dec c c') as [->|N].
    + rewrite IH. split; intros [b H]; exists b; congruence.
    + split; [discriminate|]. intros [b H]. congruence.
Qed.

Lemma contains_spec : forall sub s, contains sub s = true <-> occurs sub s.
Proof.
  intros sub. induction s as [|c s IH]; cbn [contains]; rewrite orb_true_iff, prefix_spec.
  - split.
    + intros [[b H]|H]; [|discriminate]. exists ""%string, b. auto.
    + intros [a [b H]]. left. destruct a; [|discriminate]. exists b. auto.
  - rewrite IH. split.
    + intros [[b H]|[a [b H]]]; [exists ""%string, b; auto|]. exists (String c a), b. simpl. congruence.
    + intros [a [b H]]. destruct a as [|c' a]; [left; exists b; auto|]. right. simpl in H. injection H as _ H.
      exists a, b. auto.
Qed.

(* attributes of a module that are copied into nodes: not one of the fixed list, not
   listed in the no_propagate attribute of the module, not itself a no_propagate key *)
Definition propagates (def : val) (k : string) : Prop :=
  ~ In k ["attributes"; "extra_attributes"; "features"; "requires"; "supported_on"; "no_propagate";
          "config_after"; "transform_after"; "warnings"]%string /\
  (forall l, lookup ["no_propagate"%string] def = Some (VList l) -> ~ In (VStr k) l) /\
  ~ (occurs "no_propagate" k /\ exists v, lookup [k] def = Some v).

Lemma strings_of_spec : forall l s, In s (strings_of l) <-> In (VStr s) l.
Proof.
  induction l as [|x r IH]; intros s; simpl; [tauto|].
  destruct x; simpl; rewrite IH; try (split; [auto|intros [H|H]; [discriminate|auto]]).
  split; intros [H|H]; auto; left; congruence.
Qed.

Lemma no_propagate_spec : forall def k, memS k (no_propagate def) = false <-> propagates def k.
Proof.
  intros def k. rewrite <- not_true_iff_false, memS_true. unfold no_propagate, propagates.
  rewrite !in_app_iff, filter_In, contains_spec.
  assert (E1 : In k (dkeys (entries def)) <-> exists v, lookup [k] def = Some v).
  { split.
    - intros H. destruct (dget k (entries def)) as [v|] eqn:E; [exists v; apply lookup_entries; auto|].
      apply dget_None in E. contradiction.
    - intros [v H]. apply lookup_entries in H. eapply dget_Some_key; eauto. }
  assert (E2 : In k (match dget "no_propagate"%string (entries def) with Some (VList l) => strings_of l | _ => [] end) <->
               exists l, lookup ["no_propagate"%string] def = Some (VList l) /\ In (VStr k) l).
  { destruct (dget "no_propagate"%string (entries def)) as [x|] eqn:E.
    - split.
      + destruct x; try contradiction. intros H. exists l. split; [apply lookup_entries; auto|]. apply strings_of_spec. auto.
      + intros [l [H1 H2]]. apply lookup_entries in H1. rewrite E in H1. injection H1 as ->. apply strings_of_spec. auto.
    - split; [contradiction|]. intros [l [H1 _]]. apply lookup_entries in H1. congruence. }
  rewrite E1, E2. change no_propagate_list with
    ["attributes"; "extra_attributes"; "features"; "requires"; "supported_on"; "no_propagate";
     "config_after"; "transform_after"; "warnings"]%string.
  split.
  - intros H. split; [tauto|]. split; [|tauto]. intros l H1 H2. apply H. right. left. eauto.
  - intros [H1 [H2 H3]] [H|[[l [K1 K2]]|H]]; [tauto| |tauto]. exact (H2 l K1 K2).
Qed.

Lemma pops_dict : forall ks v, is_dict (fold_left (fun v k => pop k v) ks v) = is_dict v.
Proof. induction ks as [|k r IH]; intros v; simpl; auto. rewrite IH. apply pop_dict. Qed.

Lemma pops_wf : forall ks v, wf v -> wf (fold_left (fun v k => pop k v) ks v).
Proof. induction ks as [|k r IH]; intros v W; simpl; auto. apply IH. apply pop_wf. auto. Qed.

Lemma lookup_propagated : forall def s k p,
  (propagates def k -> lookup (k :: p) (propagated def s) = lookup (k :: p) s) /\
  (~ propagates def k -> lookup (k :: p) (propagated def s) = None).
Proof.
  intros def s k p. unfold propagated. rewrite lookup_pops, <- no_propagate_spec.
  destruct (memS k (no_propagate def)); split; intros H; congruence.
Qed.

(* a box: a dictionary with unique keys *)
Definition box (v : val) : Prop := is_dict v = true /\ wf v.
Definition obox (o : option val) : Prop := forall v, o = Some v -> box v.

Lemma box_empty : box empty_box.
Proof. split; [reflexivity|]. simpl. split; [constructor|auto]. Qed.

Lemma obox_node_box : forall o, obox o -> box (node_box o).
Proof. intros [v|] H; simpl; auto. apply box_empty. Qed.

Lemma propagated_box : forall def s, box s -> box (propagated def s).
Proof. intros def s [D W]. split; [unfold propagated; rewrite pops_dict; auto|apply pops_wf; auto]. Qed.

Lemma falsy_box : forall v, box v -> truthy v = false -> v = empty_box.
Proof. intros v [D _] H. destruct v; try discriminate. destruct d; [reflexivity|discriminate]. Qed.

Lemma merge_box : forall a b, box a -> box b -> box (merge a b).
Proof.
  intros a b [Da Wa] [Db Wb]. split; [|apply merge_wf; auto].
  destruct a; try discriminate. destruct b; try discriminate. reflexivity.
Qed.

Lemma merge_empty_left : forall v, box v -> merge empty_box v = v.
Proof. intros v [D W]. destruct v; try discriminate. apply merge_unit_left. auto. Qed.

Lemma propagated_empty : forall def, propagated def empty_box = empty_box.
Proof.
  intros def. unfold propagated. induction (no_propagate def) as [|k r IH]; auto.
Qed.

Definition opropagated (def : val) (o : option val) : val := propagated def (node_box o).

Lemma params_layers : forall glob dev def nm, obox glob -> obox dev -> box def -> obox nm ->
  node_box (merge_module_params glob dev def nm) =
  layer [opropagated def glob; opropagated def dev; propagated def def] (node_box nm).
Proof.
  intros glob dev def nm Hg Hd Hf Hn. unfold merge_module_params, layer. cbn [fold_left].
  set (nm1 := match glob with None => nm | Some g => _ end).
  assert (E1 : node_box nm1 = merge (opropagated def glob) (node_box nm)).
  { unfold nm1, opropagated. destruct glob as [g|]; simpl node_box.
    - destruct (truthy (propagated def g)) eqn:T; auto.
      rewrite (falsy_box _ (propagated_box def g (Hg g eq_refl)) T), merge_empty_left; auto. apply obox_node_box; auto.
    - rewrite propagated_empty, merge_empty_left; auto. apply obox_node_box; auto. }
  assert (B1 : box (node_box nm1)).
  { rewrite E1. apply merge_box; [|apply obox_node_box; auto]. apply propagated_box. apply obox_node_box. auto. }
  set (nm2 := match dev with None => nm1 | Some g => _ end).
  assert (E2 : node_box nm2 = merge (opropagated def dev) (node_box nm1)).
  { unfold nm2, opropagated. destruct dev as [g|]; simpl node_box.
    - destruct (truthy g) eqn:T; auto.
      rewrite (falsy_box g (Hd g eq_refl) T), propagated_empty, merge_empty_left; auto.
    - rewrite propagated_empty, merge_empty_left; auto. }
  assert (B2 : box (node_box nm2)).
  { rewrite E2. apply merge_box; auto. apply propagated_box. apply obox_node_box. auto. }
  rewrite <- E1, <- E2. destruct (truthy (propagated def def)) eqn:T; auto.
  rewrite (falsy_box _ (propagated_box def def Hf) T), merge_empty_left; auto.
Qed.

Lemma leaf_propagated : forall def s k q v,
  leaf (k :: q) (propagated def s) v <-> propagates def k /\ leaf (k :: q) s v.
Proof.
  intros def s k q v. unfold leaf. destruct (lookup_propagated def s k q) as [H1 H2].
  split.
  - intros [L D]. assert (P : propagates def k).
    { apply no_propagate_spec. destruct (memS k (no_propagate def)) eqn:E; auto.
      rewrite H2 in L; [discriminate|]. rewrite <- no_propagate_spec. congruence. }
    rewrite H1 in L by auto. auto.
  - intros [P [L D]]. rewrite H1 by auto. auto.
Qed.

Lemma overridden_propagated : forall def s k q, is_dict s = true ->
  overridden (k :: q) (propagated def s) -> overridden (k :: q) s.
Proof.
  intros def s k q D H.
  assert (G : forall p v, lookup (k :: p) (propagated def s) = Some v -> lookup (k :: p) s = Some v).
  { intros p v. unfold propagated. rewrite lookup_pops. destruct (memS k (no_propagate def)); [discriminate|auto]. }
  destruct H as [[v H]|[q1 [r [v [E [L S]]]]]].
  - left. exists v. auto.
  - destruct q1 as [|k1 q1].
    + simpl in L. injection L as <-. unfold propagated in S. rewrite pops_dict in S. congruence.
    + injection E as <- ->. right. exists (k :: q1), r, v. auto.
Qed.

Lemma leaf_nonempty_path : forall v p x, is_dict v = true -> leaf p v x -> exists k q, p = k :: q.
Proof.
  intros v p x D [L S]. destruct p as [|k q]; eauto. simpl in L. injection L as <-. congruence.
Qed.

(* C23: module parameters of a node: what the node sets stays; everything else comes from the
   propagated attributes of the topology, the device or the system defaults; an attribute
   set by several sources is taken from the first of them; *)
Theorem module_params_precedence : forall glob dev def nm,
  obox glob -> obox dev -> box def -> obox nm ->
  let n := node_box nm in
  let g := node_box glob in
  let d := node_box dev in
  let r := node_box (merge_module_params glob dev def nm) in
  (forall p v, leaf p n v -> leaf p r v) /\
  (forall k q v, leaf (k :: q) r v ->
     leaf (k :: q) n v \/
     (propagates def k /\ (leaf (k :: q) g v \/ leaf (k :: q) d v \/ leaf (k :: q) def v))) /\
  (forall k q v, propagates def k -> leaf (k :: q) g v -> ~ overridden (k :: q) n -> leaf (k :: q) r v) /\
  (forall k q v, propagates def k -> leaf (k :: q) d v -> ~ overridden (k :: q) n -> ~ overridden (k :: q) g ->
     leaf (k :: q) r v) /\
  (forall k q v, propagates def k -> leaf (k :: q) def v ->
     ~ overridden (k :: q) n -> ~ overridden (k :: q) g -> ~ overridden (k :: q) d -> leaf (k :: q) r v).
Proof.
  intros glob dev def nm Hg Hd Hf Hn n g d r.
  pose proof (obox_node_box _ Hg) as [Dg Wg]. pose proof (obox_node_box _ Hd) as [Dd Wd].
  pose proof (obox_node_box _ Hn) as [Dn Wn].
  assert (F : Forall wf [opropagated def glob; opropagated def dev; propagated def def]).
  { repeat constructor; apply propagated_box; try (split; auto; fail); auto. }
  unfold r. rewrite params_layers by auto. fold n in Dn, Wn. fold g in Dg, Wg. fold d in Dd, Wd. fold n.
  split; [|split; [|split; [|split]]].
  - intros p v L. apply layer_keeps; auto.
  - intros k q v L. apply layer_origin in L; auto. destruct L as [L|[s [Hs L]]]; auto. right.
    destruct Hs as [<-|[<-|[<-|[]]]]; apply leaf_propagated in L; tauto.
  - intros k q v P L O.
    apply (layer_first [] (opropagated def glob) [opropagated def dev; propagated def def] n); auto.
    apply leaf_propagated. auto.
  - intros k q v P L O1 O2.
    apply (layer_first [opropagated def glob] (opropagated def dev) [propagated def def] n); auto.
    + apply leaf_propagated. auto.
    + intros h [<-|[]] K. apply O2. eapply overridden_propagated; eauto.
  - intros k q v P L O1 O2 O3.
    apply (layer_first [opropagated def glob; opropagated def dev] (propagated def def) [] n); auto.
    + apply leaf_propagated. auto.
    + intros h [<-|[<-|[]]] K; [apply O2|apply O3]; eapply overridden_propagated; eauto.
Qed.

(* ... and merging the parameters again changes nothing. *)
Theorem module_params_idempotent : forall glob dev def nm,
  obox glob -> obox dev -> box def -> obox nm ->
  forall p v, leaf p (node_box (merge_module_params glob dev def (merge_module_params glob dev def nm))) v <->
              leaf p (node_box (merge_module_params glob dev def nm)) v.
Proof.
  intros glob dev def nm Hg Hd Hf Hn p v.
  pose proof (obox_node_box _ Hg) as Bg. pose proof (obox_node_box _ Hd) as Bd.
  pose proof (obox_node_box _ Hn) as Bn.
  assert (F : Forall wf [opropagated def glob; opropagated def dev; propagated def def]).
  { repeat constructor; apply propagated_box; auto. }
  assert (B : obox (merge_module_params glob dev def nm)).
  { intros x Hx. assert (E : x = node_box (merge_module_params glob dev def nm)) by (rewrite Hx; auto).
    rewrite params_layers in E by auto. subst x. unfold layer. cbn [fold_left].
    repeat (apply merge_box; [apply propagated_box; auto|]). auto. }
  rewrite (params_layers glob dev def (merge_module_params glob dev def nm)) by auto.
  rewrite params_layers by auto. apply layer_idempotent; auto. apply Bn.
Qed.

Example module_params_case :
  let glob := Some (VDict [("area", VStr "0.0.0.1"); ("process", VInt 7); ("warnings", VBool true)]%string) in
  let dev := Some (VDict [("process", VInt 3); ("bfd", VBool true); ("vrf_only", VInt 1)]%string) in
  let def := VDict [("area", VStr "0.0.0.0"); ("cost", VInt 10); ("no_propagate", VList [VStr "vrf_only"]);
                    ("x_no_propagate", VInt 1); ("attributes", VNull)]%string in
  let nm := Some (VDict [("area", VStr "0.0.0.2")]%string) in
  obox glob /\ obox dev /\ box def /\ obox nm /\
  match merge_module_params glob dev def nm with
  | Some (VDict r) => map (fun k => dget k r)
      ["area"; "process"; "bfd"; "cost"; "vrf_only"; "warnings"; "x_no_propagate"; "attributes"]%string
  | _ => []
  end = [Some (VStr "0.0.0.2"); Some (VInt 7); Some (VBool true); Some (VInt 10); None; None; None; None].
Proof.
  intros glob dev def nm. unfold obox, box.
  split; [|split; [|split; [|split]]]; try reflexivity;
    try (intros v Hv; injection Hv as <-);
    (split; [reflexivity|simpl; repeat split; repeat constructor; simpl; intuition discriminate]).
Qed.

(* ---------- C24 ---------- *)

(* the values worth looking at, in precedence order *)
Definition present (v : val) (vals : list (option val)) : Prop := In (Some v) vals /\ truthy v = true.

Fixpoint truthies (vals : list (option val)) : list val :=
  match vals with
  | [] => []
  | Some v :: r => if truthy v then v :: truthies r else truthies r
  | None :: r => truthies r
  end.

Lemma truthies_In : forall vals v, In v (truthies vals) <-> present v vals.
Proof.
  unfold present. induction vals as [|[x|] r IH]; intros v; simpl.
  - tauto.
  - destruct (truthy x) eqn:T; simpl; rewrite IH; split.
    + intros [->|[H1 H2]]; auto.
    + intros [[H|H] K]; [injection H as ->; auto|auto].
    + intros [H1 H2]; auto.
    + intros [[H|H] K]; [congruence|auto].
  - rewrite IH. split; [intros [H1 H2]; auto|intros [[H|H] K]; [discriminate|auto]].
Qed.

Lemma truthies_app : forall a b, truthies (a ++ b) = truthies a ++ truthies b.
Proof.
  induction a as [|[x|] r IH]; intros b; simpl; auto. destruct (truthy x); simpl; rewrite IH; auto.
Qed.

(* C24: without dictionary merging, or with a non-dictionary among the values, the result is
   the first truthy value that cannot be merged; *)
Lemma effective_first_scalar : forall md pre v post,
  truthy v = true -> (is_dict v = false \/ md = false) ->
  (forall h, present h pre -> is_dict h = true /\ md = true) ->
  forall c, effective md (pre ++ Some v :: post) c = Some v.
Proof.
  intros md pre v post T D. induction pre as [|[x|] r IH]; intros H c; simpl.
  - rewrite T. simpl. destruct D as [-> | ->]; simpl; auto. rewrite orb_true_r. auto.
  - destruct (truthy x) eqn:Tx; simpl.
    + destruct (H x) as [H1 H2]; [split; [left; auto|auto]|]. rewrite H1, H2. simpl. rewrite <- H2. apply IH.
      intros h [K1 K2]. apply H. split; [right; auto|auto].
    + apply IH. intros h [K1 K2]. apply H. split; [right; auto|auto].
  - apply IH. intros h [K1 K2]. apply H. split; [right; auto|auto].
Qed.

Lemma effective_layers : forall vals c, (forall h, present h vals -> is_dict h = true) ->
  effective true vals c =
  match c with
  | Some x => Some (layer (truthies vals) x)
  | None => match truthies vals with [] => None | x :: r => Some (layer r x) end
  end.
Proof.
  induction vals as [|[x|] r IH]; intros c H; cbn [effective truthies].
  - destruct c; auto.
  - destruct (truthy x) eqn:T; cbn [negb].
    + assert (D : is_dict x = true) by (apply H; split; [left; auto|auto]). rewrite D. cbn [negb orb].
      rewrite IH by (intros h [K1 K2]; apply H; split; [right; auto|auto]). destruct c; auto.
    + apply IH. intros h [K1 K2]; apply H; split; [right; auto|auto].
  - apply IH. intros h [K1 K2]; apply H; split; [right; auto|auto].
Qed.

(* ... when all truthy values are dictionaries, the result is their union with earlier values
   winning; *)
Lemma effective_union : forall vals, (forall h, present h vals -> box h) -> (exists h, present h vals) ->
  exists r, effective true vals None = Some r /\
    (forall p v, leaf p r v -> exists h, present h vals /\ leaf p h v) /\
    (forall pre h post p v, vals = pre ++ Some h :: post -> truthy h = true -> leaf p h v ->
       (forall e, present e pre -> ~ overridden p e) -> leaf p r v).
Proof.
  intros vals B [h0 P0]. rewrite effective_layers by (intros h P; apply (B h P)).
  assert (F : Forall wf (truthies vals)) by (apply Forall_forall; intros x Hx; apply truthies_In in Hx; apply (B x Hx)).
  assert (Tr : forall pre h post, vals = pre ++ Some h :: post -> truthy h = true ->
             truthies vals = truthies pre ++ h :: truthies post).
  { intros pre h post -> T. rewrite truthies_app. simpl. rewrite T. auto. }
  destruct (truthies vals) as [|x r] eqn:E.
  - apply truthies_In in P0. rewrite E in P0. contradiction.
  - inversion F as [|? ? Wx Wr]; subst. exists (layer r x). split; auto. split.
    + intros p v L. apply layer_origin in L; auto. destruct L as [L|[s [Hs L]]].
      * exists x. split; auto. apply truthies_In. rewrite E. left; auto.
      * exists s. split; auto. apply truthies_In. rewrite E. right; auto.
    + intros pre h post p v Ev T L O. specialize (Tr pre h post Ev T).
      assert (O' : forall e, In e (truthies pre) -> ~ overridden p e).
      { intros e He. apply O. apply truthies_In. auto. }
      destruct (truthies pre) as [|y l1]; simpl in Tr; injection Tr as -> ->.
      * apply layer_keeps; auto.
      * apply layer_first; auto.
        -- apply O'. left; auto.
        -- intros e He. apply O'. right; auto.
Qed.

(* ... there is no result only when there is no truthy value; *)
Lemma effective_none : forall md vals, effective md vals None = None <-> forall h, ~ present h vals.
Proof.
  intros md vals.
  assert (Q : forall vals c, effective md vals c = None <-> c = None /\ forall h, ~ present h vals).
  { induction vals0 as [|[x|] r IH]; intros c; cbn [effective].
    - split; [intros ->; split; auto; intros h [[] _]|tauto].
    - destruct (truthy x) eqn:T; cbn [negb].
      + destruct (negb (is_dict x) || negb md).
        * split; [discriminate|]. intros [_ H]. exfalso. apply (H x). split; [left; auto|auto].
        * rewrite IH. split; [intros [C _]; discriminate|]. intros [_ H]. exfalso. apply (H x). split; [left; auto|auto].
      + rewrite IH. split; intros [H1 H2]; split; auto; intros h [K1 K2].
        * destruct K1 as [K1|K1]; [congruence|]. apply (H2 h). split; auto.
        * apply (H2 h). split; [right; auto|auto].
    - rewrite IH. split; intros [H1 H2]; split; auto; intros h [K1 K2].
      + destruct K1 as [K1|K1]; [discriminate|]. apply (H2 h). split; auto.
      + apply (H2 h). split; [right; auto|auto]. }
  rewrite Q. tauto.
Qed.

(* the object sets the attribute to a truthy value *)
Definition sets (path : list string) (o : option val) (v : val) : Prop :=
  exists b, o = Some b /\ lookup path b = Some v /\ truthy v = true.

Lemma present_sets : forall path objs v,
  present v (map (fun o => match o with Some v => lookup path v | None => None end) objs) <->
  exists o, In o objs /\ sets path o v.
Proof.
  intros path objs v. unfold present, sets. rewrite in_map_iff. split.
  - intros [[o [H1 H2]] T]. destruct o as [b|]; [|discriminate]. exists (Some b). split; auto. exists b. auto.
  - intros [o [H [b [-> [L T]]]]]. split; auto. exists (Some b). auto.
Qed.

(* The same for the attribute of interface, link, node, topology and defaults: the first object
   with a value that is not a dictionary decides ... *)
Theorem effective_attribute_scalar : forall path pre o post md v,
  sets path o v -> (is_dict v = false \/ md = false) ->
  (forall e x, In e pre -> sets path e x -> is_dict x = true /\ md = true) ->
  get_effective_module_attribute path (pre ++ o :: post) md = Some v.
Proof.
  intros path pre o post md v [b [-> [L T]]] D H. unfold get_effective_module_attribute.
  rewrite map_app. simpl map. rewrite L. apply effective_first_scalar; auto.
  intros h P. apply present_sets in P. destruct P as [e [H1 H2]]. eauto.
Qed.

(* ... dictionaries are merged, each leaf is taken from the first object that sets it ... *)
Theorem effective_attribute_union : forall path objs,
  (forall o x, In o objs -> sets path o x -> box x) -> (exists o x, In o objs /\ sets path o x) ->
  exists r, get_effective_module_attribute path objs true = Some r /\
    (forall p v, leaf p r v -> exists o x, In o objs /\ sets path o x /\ leaf p x v) /\
    (forall pre o post x p v, objs = pre ++ o :: post -> sets path o x -> leaf p x v ->
       (forall e y, In e pre -> sets path e y -> ~ overridden p y) -> leaf p r v).
Proof.
  intros path objs B [o0 [x0 [I0 S0]]]. unfold get_effective_module_attribute.
  set (f := fun o => match o with Some v => lookup path v | None => None end).
  destruct (effective_union (map f objs)) as [r [E [O1 O2]]].
  - intros h P. apply present_sets in P. destruct P as [o [H1 H2]]. eauto.
  - exists x0. apply present_sets. eauto.
  - exists r. split; auto. split.
    + intros p v L. destruct (O1 p v L) as [h [P K]]. apply present_sets in P. destruct P as [o [H1 H2]]. eauto.
    + intros pre o post x p v -> S L H. destruct S as [b [-> [Lb T]]].
      apply (O2 (map f pre) x (map f post) p v); auto.
      * rewrite map_app. simpl. rewrite Lb. auto.
      * intros e P. apply present_sets in P. destruct P as [o [H1 H2]]. eauto.
Qed.

(* ... and there is no value exactly when no object sets one; *)
Theorem effective_attribute_none : forall path objs md,
  get_effective_module_attribute path objs md = None <-> forall o v, In o objs -> ~ sets path o v.
Proof.
  intros path objs md. unfold get_effective_module_attribute. rewrite effective_none. split.
  - intros H o v I S. apply (H v). apply present_sets. eauto.
  - intros H h P. apply present_sets in P. destruct P as [o [H1 H2]]. exact (H o h H1 H2).
Qed.

(* ... but "an interface setting wins over a node setting" is false when the types differ: a
   scalar in the node replaces the dictionary of the interface. *)
Theorem effective_precedence_refuted :
  exists path intf node v p x,
    get_effective_module_attribute path [Some intf; None; Some node] true = Some v /\
    leaf (path ++ p) intf x /\ ~ leaf p v x /\ v = VBool true.
Proof.
  exists ["bfd"; "ipv4"]%string, (VDict [("bfd", VDict [("ipv4", VDict [("tx", VInt 5)])])]%string),
    (VDict [("bfd", VDict [("ipv4", VBool true)])]%string), (VBool true), ["tx"]%string, (VInt 5).
  split; [reflexivity|]. split; [split; reflexivity|]. split; [|reflexivity].
  intros [C _]. discriminate.
Qed.

Example effective_case :
  let intf := Some (VDict [("timers", VDict [("hello", VInt 1)])]%string) in
  let node := Some (VDict [("timers", VDict [("hello", VInt 5); ("dead", VInt 20)])]%string) in
  get_effective_module_attribute ["timers"]%string [intf; None; node] true =
    Some (VDict [("hello", VInt 1); ("dead", VInt 20)]%string) /\
  get_effective_module_attribute ["timers"; "dead"]%string [intf; None; node] true = Some (VInt 20) /\
  get_effective_module_attribute ["timers"]%string [intf; None; node] false = Some (VDict [("hello", VInt 1)]%string).
Proof. repeat split; reflexivity. Qed.

(* ---------- C25 ---------- *)

Lemma used_modules_In : forall tm nodes m,
  In m (used_modules tm nodes) <-> In m tm \/ exists n, In n nodes /\ In m (mn_module n).
Proof.
  intros tm nodes m. unfold used_modules.
  assert (P : In m (sortS (nodup string_dec (tm ++ flat_map mn_module nodes))) <->
              In m (nodup string_dec (tm ++ flat_map mn_module nodes))).
  { pose proof (sortS_perm (nodup string_dec (tm ++ flat_map mn_module nodes))) as Q. split; intros H.
    - eapply Permutation_in; [apply Permutation_sym; exact Q|exact H].
    - eapply Permutation_in; [exact Q|exact H]. }
  rewrite P, nodup_In, in_app_iff, in_flat_map. tauto.
Qed.

Lemma filter_not_mem : forall r l req, In r (filter (fun r => negb (memS r l)) req) <-> In r req /\ ~ In r l.
Proof.
  intros r l req. rewrite filter_In, negb_true_iff, <- not_true_iff_false, memS_true. tauto.
Qed.

(* C25: a node gets a dependency error exactly for the modules that one of its modules needs
   (in general, or on its device) and that it does not run; *)
Theorem node_dependency_errors_exact : forall defs tm nodes nn m r,
  In (NodeRequires nn m r) (check_module_dependencies defs (used_modules tm nodes) nodes) <->
  exists n req, In n nodes /\ mn_name n = nn /\ In m (mn_module n) /\ defs m = Some req /\
    (In r req \/ In r (mn_features n m)) /\ ~ In r (mn_module n).
Proof.
  intros defs tm nodes nn m r. unfold check_module_dependencies. rewrite in_flat_map. split.
  - intros [m' [Hm H]]. destruct (defs m') as [req|] eqn:E; [|contradiction].
    apply in_app_iff in H. destruct H as [H|H].
    + apply in_map_iff in H. destruct H as [x [H _]]. discriminate.
    + apply in_flat_map in H. destruct H as [n [Hn H]].
      destruct (memS m' (mn_module n)) eqn:M; [|contradiction].
      apply in_map_iff in H. destruct H as [x [H1 H2]]. injection H1 as <- <- <-.
      apply filter_not_mem in H2. rewrite in_app_iff in H2. apply memS_true in M. exists n, req. tauto.
  - intros [n [req [Hn [En [Hm [E [Hr Nr]]]]]]]. exists m. split; [apply used_modules_In; eauto|]. rewrite E.
    apply in_app_iff. right. apply in_flat_map. exists n. split; auto.
    rewrite (proj2 (memS_true _ _) Hm). rewrite <- En. apply in_map. apply filter_not_mem. rewrite in_app_iff. tauto.
Qed.

(* ... the topology gets one exactly for the required modules nobody uses; *)
Theorem topology_dependency_errors_exact : forall defs tm nodes m r,
  In (TopoRequires m r) (check_module_dependencies defs (used_modules tm nodes) nodes) <->
  exists req, (In m tm \/ exists n, In n nodes /\ In m (mn_module n)) /\ defs m = Some req /\ In r req /\
    ~ In r tm /\ (forall n, In n nodes -> ~ In r (mn_module n)).
Proof.
  intros defs tm nodes m r. unfold check_module_dependencies. rewrite in_flat_map. split.
  - intros [m' [Hm H]]. destruct (defs m') as [req|] eqn:E; [|contradiction].
    apply in_app_iff in H. destruct H as [H|H].
    + apply in_map_iff in H. destruct H as [x [H1 H2]]. injection H1 as <- <-.
      apply filter_not_mem in H2. rewrite used_modules_In in H2. apply used_modules_In in Hm.
      exists req. destruct H2 as [H2 H3]. repeat split; auto. intros n Hn K. apply H3. eauto.
    + apply in_flat_map in H. destruct H as [n [Hn H]].
      destruct (memS m' (mn_module n)); [|contradiction].
      apply in_map_iff in H. destruct H as [x [H1 _]]. discriminate.
  - intros [req [Hm [E [Hr [N1 N2]]]]]. exists m. split; [apply used_modules_In; auto|]. rewrite E.
    apply in_app_iff. left. apply in_map. apply filter_not_mem. rewrite used_modules_In. split; auto.
    intros [K|[n [K1 K2]]]; [auto|]. exact (N2 n K1 K2).
Qed.

(* ... and when a topology passes, the module list of every node is closed under requirements. *)
Theorem checked_modules_closed : forall defs tm nodes,
  check_module_dependencies defs (used_modules tm nodes) nodes = [] ->
  forall n m req r, In n nodes -> In m (mn_module n) -> defs m = Some req ->
    In r req \/ In r (mn_features n m) -> In r (mn_module n).
Proof.
  intros defs tm nodes H n m req r Hn Hm E Hr.
  destruct (in_dec string_dec r (mn_module n)) as [K|K]; auto. exfalso.
  assert (Q : In (NodeRequires (mn_name n) m r) []).
  { rewrite <- H. apply node_dependency_errors_exact. exists n, req. tauto. }
  contradiction.
Qed.

(* The sorted module list consists of the known modules, each after everything it requires and
   everything it has to be configured after; *)
Theorem module_sort_sound : forall mods known requires after out,
  sort_module_list mods known requires after = Ok out ->
  (forall m, count_occ string_dec out m = if known m then count_occ string_dec mods m else 0) /\
  (2 <= length (filter known mods) ->
   forall l1 m l2 r, out = l1 ++ m :: l2 -> In r (requires m) \/ In r (after m) -> ~ In r (m :: l2)).
Proof.
  intros mods known requires after out H. unfold sort_module_list in H.
  apply dependency_sort_sound in H. destruct H as [P O]. split.
  - intros m. rewrite (Permutation_count_occ string_dec) in P. rewrite <- P.
    clear P O. induction mods as [|x r IH]; simpl; [destruct (known m); auto|].
    destruct (known x) eqn:K; simpl; destruct (string_dec x m) as [->|N]; rewrite IH, ?K; auto.
  - intros L l1 m l2 r E Hr. intros K. apply (O L l1 m l2 E r); auto. apply in_app_iff. auto.
Qed.

(* ... and sorting fails exactly on a dependency loop between the known modules. *)
Theorem module_sort_fails_iff_cycle : forall mods known requires after,
  2 <= length (filter known mods) ->
  ((exists e, sort_module_list mods known requires after = Err e) <->
   cyclic (fun m => requires m ++ after m) (filter known mods)).
Proof.
  intros mods known requires after L. unfold sort_module_list.
  destruct (dependency_sort_fails_iff_cycle (fun m => requires m ++ after m) (filter known mods) L) as [H1 _].
  rewrite <- H1. split; [intros [[] H]; auto|eauto].
Qed.

Example module_dependencies_case :
  let defs := fun m => if String.eqb m "evpn" then Some ["bgp"; "vxlan"]%string
                       else if String.eqb m "bgp" then Some [] else None in
  let n1 := mk_mnode "a" ["evpn"; "bgp"; "vxlan"]%string (fun _ => []) in
  let n2 := mk_mnode "b" ["evpn"; "bgp"]%string (fun m => if String.eqb m "bgp" then ["ospf"]%string else []) in
  check_module_dependencies defs (used_modules ["bgp"]%string [n1; n2]) [n1; n2] =
    [NodeRequires "b" "bgp" "ospf"; NodeRequires "b" "evpn" "vxlan"]%string /\
  sort_module_list ["evpn"; "x"; "bgp"; "vxlan"]%string (fun m => negb (String.eqb m "x"))
    (fun m => match defs m with Some l => l | None => [] end) (fun _ => []) = Ok ["bgp"; "vxlan"; "evpn"]%string.
Proof. vm_compute. split; reflexivity. Qed.

Print Assumptions module_params_precedence.
Print Assumptions module_params_idempotent.
Print Assumptions effective_attribute_scalar.
Print Assumptions effective_attribute_union.
Print Assumptions effective_attribute_none.
Print Assumptions effective_precedence_refuted.
Print Assumptions node_dependency_errors_exact.
Print Assumptions topology_dependency_errors_exact.
Print Assumptions checked_modules_closed.
Print Assumptions module_sort_sound.
Print Assumptions module_sort_fails_iff_cycle.
