(* Property C124: components that are expanded without an error. *)
From Coq Require Import String Ascii ZArith Lia Bool List.
From Verif Require Import Base Box_Model Lnk_Model Lnk_Props Lnkgrp_Props Comp_Model Comp_Props Compdef_Props.
Import ListNotations.
Local Open Scope string_scope.
Local Open Scope list_scope.
Local Open Scope nat_scope.

(* ---------- specification ---------- *)

(* all names created for an instance of component [c] under the name [n]: the nodes and the nested
   include requests *)
Inductive tree (comps : dict comp) : string -> string -> list (string * node) -> Prop :=
| tr_comp : forall n c cc A, dget c comps = Some cc -> trees comps n (c_nodes cc) A -> tree comps n c A
with trees (comps : dict comp) : string -> list (string * node) -> list (string * node) -> Prop :=
| ts_nil : forall n, trees comps n [] []
| ts_leaf : forall n x nd r A, dget "include" nd = None -> trees comps n r A ->
    trees comps n ((x, nd) :: r) ((under n x, nd) :: A)
| ts_include : forall n x nd c r A1 A2, dget "include" nd = Some (VStr c) -> tree comps (under n x) c A1 ->
    trees comps n r A2 -> trees comps n ((x, nd) :: r) ((under n x, nd) :: A1 ++ A2).

Scheme tree_mind := Minimality for tree Sort Prop
  with trees_mind := Minimality for trees Sort Prop.
Combined Scheme tree_mutind from tree_mind, trees_mind.

Inductive forest (comps : dict comp) : list (string * node) -> list (string * node) -> Prop :=
| fo_nil : forest comps [] []
| fo_node : forall n nd r A, dget "include" nd = None -> forest comps r A -> forest comps ((n, nd) :: r) A
| fo_include : forall n nd c r A1 A2, dget "include" nd = Some (VStr c) -> tree comps n c A1 -> forest comps r A2 ->
    forest comps ((n, nd) :: r) (A1 ++ A2).

(* the nodes among the names *)
Definition leaves (A : list (string * node)) : list (string * node) := filter (fun kv => negb (is_request kv)) A.

(* ---------- proofs ---------- *)

Lemma leaves_app : forall A B, leaves (A ++ B) = leaves A ++ leaves B.
Proof. intros A B. unfold leaves. apply filter_app. Qed.

Lemma inc_inj : forall a b, ("inc_" ++ a)%string = ("inc_" ++ b)%string -> a = b.
Proof. intros a b H. cbn in H. injection H as H. auto. Qed.

(* the state after the names [A] were added *)
Record added (A : list (string * node)) (own : list string) (t t' : topo) : Prop := {
  ad_errs : t_errs t' = t_errs t;
  ad_keep : forall k v, dget k (t_nodes t) = Some v -> dget k (t_nodes t') = Some v;
  ad_nodes : dkeys (t_nodes t') = dkeys (t_nodes t) ++ dkeys (leaves A);
  ad_groups : forall g, In g (dkeys (t_groups t')) -> In g (dkeys (t_groups t)) \/
    exists m, g = ("inc_" ++ m)%string /\ (In m own \/ exists nd, In (m, nd) A /\ dget "include" nd <> None)
}.

(* the names [A] can be added *)
Record room (A : list (string * node)) (t : topo) : Prop := {
  rm_nodup : NoDup (dkeys A);
  rm_new : forall m, In m (dkeys A) -> ~ In m (dkeys (t_nodes t));
  rm_ident : forall m, In m (dkeys A) -> ident m;
  rm_count : length (t_nodes t) + length (leaves A) <= 250;
  rm_groups : forall m nd, In (m, nd) A -> dget "include" nd <> None -> ~ In ("inc_" ++ m)%string (dkeys (t_groups t))
}.

Lemma dkeys_length : forall A (d : dict A), length (dkeys d) = length d.
Proof. intros A d. unfold dkeys. apply map_length. Qed.

Lemma dkeys_app : forall A (a b : dict A), dkeys (a ++ b) = dkeys a ++ dkeys b.
Proof. intros A a b. unfold dkeys. apply map_app. Qed.

Lemma leaves_keys : forall A m, In m (dkeys (leaves A)) -> In m (dkeys A).
Proof.
  intros A m I. unfold dkeys, leaves in *. apply in_map_iff in I. destruct I as [x [<- I]]. apply filter_In in I.
  apply in_map. tauto.
Qed.

Lemma NoDup_app_disj : forall (a b : list string), NoDup (a ++ b) -> NoDup a /\ NoDup b /\ forall x, In x a -> ~ In x b.
Proof.
  induction a as [|x a IH]; intros b H; cbn in H; [split; [constructor|split; [auto|intros x []]]|].
  inversion H; subst. destruct (IH _ H3) as [I1 [I2 I3]]. split; [constructor; auto; intros J; apply H2, in_or_app; auto|].
  split; [auto|]. intros y [<-|J] K; [apply H2, in_or_app; auto|eapply I3; eauto].
Qed.

(* the second part of the names has room after the first one was added *)
Lemma room_rest : forall A1 A2 own t t', room (A1 ++ A2) t -> added A1 own t t' ->
  (forall m, In m own -> ~ In m (dkeys A2)) -> room A2 t'.
Proof.
  intros A1 A2 own t t' [R1 R2 R3 R4 R5] [D1 _ D2 D3] O. rewrite dkeys_app in *.
  destruct (NoDup_app_disj _ _ R1) as [N1 [N2 N3]]. constructor.
  - auto.
  - intros m I J. rewrite D2 in J. apply in_app_iff in J. destruct J as [J|J].
    + apply (R2 m); [apply in_or_app; auto|auto].
    + apply (N3 m); [apply leaves_keys; auto|auto].
  - intros m I. apply R3, in_or_app. auto.
  - rewrite <- dkeys_length, D2, app_length, !dkeys_length. rewrite leaves_app, app_length in R4. lia.
  - intros m nd I J G. apply D3 in G. destruct G as [G|[m' [E [G|[nd' [G _]]]]]].
    + eapply R5; [apply in_or_app; right; exact I|auto|auto].
    + apply inc_inj in E. subst m'. apply (O m G). apply in_map_iff. exists (m, nd). auto.
    + apply inc_inj in E. subst m'. apply (N3 m); apply in_map_iff; [exists (m, nd')|exists (m, nd)]; auto.
Qed.

Lemma room_first : forall A1 A2 t, room (A1 ++ A2) t -> room A1 t.
Proof.
  intros A1 A2 t [R1 R2 R3 R4 R5]. rewrite dkeys_app in *. destruct (NoDup_app_disj _ _ R1) as [N1 [N2 N3]]. constructor; auto.
  - intros m I. apply R2, in_or_app. auto.
  - intros m I. apply R3, in_or_app. auto.
  - rewrite leaves_app, app_length in R4. lia.
  - intros m nd I. apply R5, in_or_app. auto.
Qed.

Lemma added_app : forall A1 A2 o1 o2 t t1 t2, added A1 o1 t t1 -> added A2 o2 t1 t2 -> added (A1 ++ A2) (o1 ++ o2) t t2.
Proof.
  intros A1 A2 o1 o2 t t1 t2 [D1 D0 D2 D3] [F1 F0 F2 F3]. constructor; [congruence|auto| |].
  - rewrite F2, D2, leaves_app, dkeys_app, app_assoc. auto.
  - intros g G. apply F3 in G. destruct G as [G|[m [E [G|[nd [G J]]]]]].
    + apply D3 in G. destruct G as [G|[m [E [G|[nd [G J]]]]]]; [auto| |]; right; exists m; (split; [auto|]).
      * left. apply in_or_app. auto.
      * right. exists nd. split; [apply in_or_app; auto|auto].
    + right. exists m. split; [auto|]. left. apply in_or_app. auto.
    + right. exists m. split; [auto|]. right. exists nd. split; [apply in_or_app; auto|auto].
Qed.

Lemma group_added : forall n nd cc t, ~ In ("inc_" ++ n)%string (dkeys (t_groups t)) ->
  added [] [n] t (create_included_group n nd cc t).
Proof.
  intros n nd cc t H. unfold create_included_group.
  destruct (dmem ("inc_" ++ n) (t_groups t)) eqn:E; [apply dmem_true in E; contradiction|].
  constructor; cbn; [auto|auto|rewrite app_nil_r; auto|]. intros g G. apply in_map_iff in G. destruct G as [[g' gd] [<- G]].
  apply In_dset in G. destruct G as [Q|G].
  - injection Q as Q _. right. exists n. split; [exact Q|left; left; auto].
  - left. apply in_map_iff. exists (g', gd). auto.
Qed.

Lemma links_added : forall start n ls t, added [] [] t (include_links start n ls t).
Proof.
  intros start n ls. induction ls as [|l ls IH]; intros t; cbn [include_links].
  - constructor; [auto|auto|cbn; rewrite app_nil_r; auto|auto].
  - destruct (IH (set_links (t_links t ++ [include_link n (next_index start (t_links t)) l]) t)) as [D1 D0 D2 D3]. constructor; auto.
Qed.

Lemma trees_accepted : forall start comps,
  (forall n c A, tree comps n c A -> exists k, forall cc f nd t, dget c comps = Some cc -> k <= f -> room A t ->
     ~ In n (dkeys A) -> ~ In ("inc_" ++ n)%string (dkeys (t_groups t)) ->
     exists t', expand_include start comps f n nd cc t = Done t' /\ added A [n] t t') /\
  (forall n ns A, trees comps n ns A -> exists k, forall f t, k <= f -> room A t ->
     exists t', include_nodes comps (expand_include start comps f) n ns t = Done t' /\ added A [] t t').
Proof.
  intros start comps. apply tree_mutind.
  - intros n c cc A E _ [k IH]. exists (S k). intros cc' f nd t E' L R NA G. rewrite E in E'. injection E' as <-.
    destruct f as [|f]; [lia|]. cbn [expand_include]. destruct (IH f t) as [t1 [H1 D1]]; [lia|auto|]. rewrite H1.
    eexists. split; [reflexivity|].
    assert (G1 : ~ In ("inc_" ++ n)%string (dkeys (t_groups (include_links start n (c_links cc) t1)))).
    { intros I. apply (ad_groups _ _ _ _ (links_added start n (c_links cc) t1)) in I.
      destruct I as [I|[m [_ [[]|[x [[] _]]]]]]. apply (ad_groups _ _ _ _ D1) in I.
      destruct I as [I|[m [Q [[]|[x [I _]]]]]]; [contradiction|]. apply inc_inj in Q. subst m. apply NA.
      apply in_map_iff. exists (n, x). auto. }
    pose proof (added_app _ _ _ _ _ _ _ (added_app _ _ _ _ _ _ _ D1 (links_added start n (c_links cc) t1)) (group_added n nd cc _ G1)) as D.
    rewrite !app_nil_r in D. exact D.
  - intros n. exists 0. intros f t _ _. exists t. split; [reflexivity|]. constructor; [auto|auto|cbn; rewrite app_nil_r; auto|auto].
  - intros n x nd r A E _ [k IH]. exists k. intros f t L R. change ((under n x, nd) :: A) with ([(under n x, nd)] ++ A) in *.
    cbn [include_nodes]. change (sub_name n x) with (under n x). cbv zeta.
    rewrite (proj2 (valid_id_ident (under n x)) (rm_ident _ _ R _ (or_introl eq_refl))). cbv beta iota.
    destruct (dmem (under n x) (t_nodes t)) eqn:M.
    { apply dmem_true in M. exfalso. eapply (rm_new _ _ R); [left; reflexivity|exact M]. }
    rewrite E. set (t1 := set_nodes (dset (under n x) nd (t_nodes t)) t).
    assert (LV : leaves [(under n x, nd)] = [(under n x, nd)]).
    { unfold leaves. cbn [filter]. unfold is_request, dmem. cbn [snd]. rewrite E. auto. }
    assert (NI : ~ In (under n x) (dkeys (t_nodes t))) by (apply (rm_new _ _ R); left; reflexivity).
    assert (D : added [(under n x, nd)] [] t t1).
    { constructor; [auto| | |auto].
      { intros k0 v0 G0. unfold t1. cbn [set_nodes t_nodes]. rewrite dget_dset_other; auto.
        intros ->. apply NI. apply dget_Some_key in G0. exact G0. }
      unfold t1. cbn [set_nodes t_nodes]. rewrite dset_new by exact NI. rewrite LV, dkeys_app. auto. }
    assert (LT : Nat.ltb MAX_NODE_ID (length (t_nodes t1)) = false).
    { apply Nat.ltb_ge. pose proof (rm_count _ _ R) as C. rewrite leaves_app, app_length, LV in C.
      pose proof (ad_nodes _ _ _ _ D) as K. apply (f_equal (@length string)) in K. rewrite app_length, LV, !dkeys_length in K.
      unfold MAX_NODE_ID. cbn [Datatypes.length] in *. lia. }
    destruct (IH f t1 L) as [t2 [H2 D2]]; [eapply room_rest; [exact R|exact D|intros m []]|].
    exists t2. split; [|exact (added_app _ _ _ _ _ _ _ D D2)].
    transitivity (if Nat.ltb MAX_NODE_ID (length (t_nodes t1)) then Fatal (under n x)
                  else include_nodes comps (expand_include start comps f) n r t1); [reflexivity|]. rewrite LT. exact H2.
  - intros n x nd c r A1 A2 E T [k1 IH1] _ [k2 IH2]. exists (max k1 k2). intros f t L R.
    cbn [include_nodes]. change (sub_name n x) with (under n x). cbv zeta.
    rewrite (proj2 (valid_id_ident (under n x)) (rm_ident _ _ R _ (or_introl eq_refl))). cbv beta iota.
    destruct (dmem (under n x) (t_nodes t)) eqn:M.
    { apply dmem_true in M. exfalso. eapply (rm_new _ _ R); [left; reflexivity|exact M]. }
    rewrite E. assert (V : exists cc, dget c comps = Some cc) by (destruct T; eauto). destruct V as [cc V].
    cbn [validate_include]. rewrite V.
    pose proof (rm_nodup _ _ R) as ND. unfold dkeys in ND. cbn [map fst] in ND. inversion ND as [|y l NI ND']; subst.
    fold (dkeys (A1 ++ A2)) in NI. rewrite dkeys_app in NI.
    assert (LV : leaves [(under n x, nd)] = []).
    { unfold leaves. cbn [filter]. unfold is_request, dmem. cbn [snd]. rewrite E. auto. }
    assert (R' : room (A1 ++ A2) t).
    { change ((under n x, nd) :: A1 ++ A2) with ([(under n x, nd)] ++ (A1 ++ A2)) in R.
      apply (room_rest _ _ [] t t R); [|intros m []]. constructor; [auto|auto|rewrite LV; cbn; rewrite app_nil_r; auto|auto]. }
    destruct (IH1 cc f nd t V) as [t1 [H1 D1]].
    { lia. } { eapply room_first. exact R'. } { intros I. apply NI, in_or_app. auto. }
    { eapply (rm_groups _ _ R); [left; reflexivity|congruence]. }
    rewrite H1. destruct (IH2 f t1) as [t2 [H2 D2]]; [lia| |].
    { eapply room_rest; [exact R'|exact D1|]. intros m [<-|[]] I. apply NI, in_or_app. auto. }
    rewrite H2. exists t2. split; [auto|]. destruct (added_app _ _ _ _ _ _ _ D1 D2) as [F1 F0 F2 F3].
    constructor; [auto|auto| |].
    + rewrite F2. f_equal. f_equal. unfold leaves. cbn [filter]. unfold is_request at 2. unfold dmem. cbn [snd]. rewrite E. auto.
    + intros g G. apply F3 in G. destruct G as [G|[m [Q [[G|[]]|[y [G J]]]]]]; [auto| |]; right; exists m; (split; [auto|]); right.
      * subst m. exists nd. split; [left; auto|congruence].
      * exists y. split; [right; auto|auto].
Qed.

Lemma dpop_length : forall (d : dict node) n, length (dpop n d) <= length d.
Proof.
  induction d as [|[a b] d IH]; intros n; cbn; [lia|]. destruct (String.eqb n a); [specialize (IH n); lia|]. cbn. specialize (IH n). lia.
Qed.

Lemma forest_accepted : forall start comps rest A, forest comps rest A -> exists k, forall f t, k <= f ->
  NoDup (dkeys rest) -> (forall n nd, In (n, nd) rest -> dget n (t_nodes t) = Some nd) -> room A t ->
  (forall n nd, In (n, nd) rest -> dget "include" nd <> None ->
     ~ In n (dkeys A) /\ ~ In ("inc_" ++ n)%string (dkeys (t_groups t))) ->
  exists t', expand_loop start comps f (dkeys rest) t = Done t' /\ t_errs t' = t_errs t.
Proof.
  intros start comps rest A F. induction F as [|n nd r A E F [k IH]|n nd c r A1 A2 E T F [k IH]].
  - exists 0. intros f t _ _ _ _ _. exists t. auto.
  - exists k. intros f t L ND G R Q. unfold dkeys. cbn [map fst expand_loop]. rewrite (G n nd (or_introl eq_refl)), E.
    inversion ND; subst. apply IH; auto; [intros m x I; apply G; right; auto|intros m x I; apply Q; right; auto].
  - destruct (proj1 (trees_accepted start comps) _ _ _ T) as [k1 IH1]. exists (max k k1). intros f t L ND G R Q.
    unfold dkeys. cbn [map fst expand_loop]. rewrite (G n nd (or_introl eq_refl)), E. cbv zeta.
    assert (V : exists cc, dget c comps = Some cc) by (destruct T; eauto). destruct V as [cc V].
    cbn [validate_include]. rewrite V. set (t0 := set_nodes (dpop n (t_nodes t)) t).
    destruct (Q n nd (or_introl eq_refl)) as [Q1 Q2]; [congruence|]. rewrite dkeys_app in Q1.
    assert (R0 : room (A1 ++ A2) t0).
    { destruct R as [R1 R2 R3 R4 R5]. constructor; auto.
      - intros m I J. apply (R2 m I). unfold dkeys in J. apply in_map_iff in J. destruct J as [x [<- J]].
        apply In_dpop in J. apply in_map. exact J.
      - unfold t0. cbn [set_nodes t_nodes]. pose proof (dpop_length (t_nodes t) n). lia. }
    destruct (IH1 cc f nd t0 V) as [t1 [H1 D1]].
    { lia. } { eapply room_first. exact R0. } { intros I. apply Q1, in_or_app. auto. } { exact Q2. }
    rewrite H1. inversion ND as [|y l NI ND']; subst. destruct (IH f t1) as [t2 [H2 Z2]].
    + lia.
    + exact ND'.
    + intros m x I. apply (ad_keep _ _ _ _ D1). unfold t0. cbn [set_nodes t_nodes].
      rewrite dget_dpop_other; [apply G; right; auto|]. intros ->. apply NI. change n with (fst (n, x)). apply in_map. exact I.
    + eapply room_rest; [exact R0|exact D1|]. intros m [<-|[]] I. apply Q1, in_or_app. auto.
    + intros m x I J. destruct (Q m x (or_intror I) J) as [P1 P2]. rewrite dkeys_app in P1. split; [intros K; apply P1, in_or_app; auto|].
      intros K. apply (ad_groups _ _ _ _ D1) in K. destruct K as [K|[m' [W [[K|[]]|[y [K _]]]]]]; [exact (P2 K)| |].
      * apply inc_inj in W. subst. apply NI. change m' with (fst (m', x)). apply in_map. exact I.
      * apply inc_inj in W. subst. apply P1, in_or_app. left. change m' with (fst (m', y)). apply in_map. exact K.
    + exists t2. split; [exact H2|]. rewrite Z2. exact (ad_errs _ _ _ _ D1).
Qed.

(* Expansion succeeds without an error when all components exist, all names - also those of nested include
   requests - are distinct identifiers with at most 16 characters, there are at most 250 nodes, and no group
   of an include request exists. *)
Theorem components_accepted : forall start comps t A, forest comps (t_nodes t) A ->
  NoDup (dkeys (t_nodes t ++ A)) -> (forall m, In m (dkeys A) -> ident m) ->
  length (t_nodes t) + length (leaves A) <= 250 ->
  (forall m nd, In (m, nd) (t_nodes t ++ A) -> dget "include" nd <> None -> ~ In ("inc_" ++ m)%string (dkeys (t_groups t))) ->
  exists k, forall fuel, k <= fuel -> exists t', expand_topology start comps fuel t = Done t' /\ t_errs t' = t_errs t.
Proof.
  intros start comps t A F ND I L G. rewrite dkeys_app in ND. destruct (NoDup_app_disj _ _ ND) as [N1 [N2 N3]].
  destruct (forest_accepted start comps _ _ F) as [k K]. exists k. intros fuel Q. apply K; auto.
  - intros n nd J. apply dget_NoDup; auto.
  - constructor; auto.
    + intros m J1 J2. exact (N3 m J2 J1).
    + intros m nd J. apply G, in_or_app. auto.
  - intros n nd J E. split; [|apply (G n nd); [apply in_or_app; auto|auto]].
    apply N3. change n with (fst (n, nd)). apply in_map. exact J.
Qed.

(* the pods of Compdef_Props.v meet the conditions *)
Definition pod_valid : dict comp := match validate_components pod_comps with (Some cs, []) => cs | _ => [] end.

Example pod_accepted : exists A, forest pod_valid (t_nodes pod_topo) A /\
  NoDup (dkeys (t_nodes pod_topo ++ A)) /\ length (leaves A) = 6 /\ length A = 8.
Proof.
  eexists. split.
  - eapply fo_include; [reflexivity| |apply fo_node; [reflexivity|eapply fo_include; [reflexivity| |apply fo_nil]]].
    + eapply tr_comp; [vm_compute; reflexivity|]. apply ts_leaf; [reflexivity|].
      eapply ts_include; [reflexivity| |apply ts_nil]. eapply tr_comp; [vm_compute; reflexivity|]. repeat (apply ts_leaf; [reflexivity|]). apply ts_nil.
    + eapply tr_comp; [vm_compute; reflexivity|]. apply ts_leaf; [reflexivity|].
      eapply ts_include; [reflexivity| |apply ts_nil]. eapply tr_comp; [vm_compute; reflexivity|]. repeat (apply ts_leaf; [reflexivity|]). apply ts_nil.
  - split; [|split; reflexivity]. vm_compute. repeat (constructor; [cbn; intuition discriminate|]). constructor.
Qed.

(* ---------- component definitions ---------- *)

(* the nodes and the links of an accepted component (C123 describes the nodes, C117-C119 the links) *)
Definition nodes_of (d : dict val) (ns : dict node) : Prop :=
  match dget "nodes" d with
  | None => ns = []
  | Some v => create_node_dict v = (Some ns, [])
  end.
Definition links_of (cname : string) (d : dict val) (ns : dict node) (ls : list link) : Prop :=
  match dget "links" d with
  | None => ls = []
  | Some v => adjust_link_list v ("components." ++ cname ++ ".links")%string (map fst ns) = (ls, [])
  end.

(* an accepted component definition *)
Definition defines (cname : string) (v : val) (c : comp) : Prop :=
  ident cname /\ exists d, (v = VDict d \/ (v = VNull /\ d = [])) /\ nodes_of d (c_nodes c) /\
  links_of cname d (c_nodes c) (c_links c) /\
  (forall k, dget k (c_attrs c) = if string_dec k "nodes" then None else if string_dec k "links" then None else dget k d).

Lemma comp_defined : forall cname v c, validate_component cname v = (Some c, []) -> defines cname v c.
Proof.
  intros cname v c H. unfold validate_component in H.
  set (d := match v with VDict d => d | _ => [] end) in *.
  set (e0 := (if valid_id cname then [] else [CCompName cname]) ++ match v with VDict _ | VNull => [] | _ => [CCompType cname] end) in *.
  assert (E : e0 = [] -> ident cname /\ (v = VDict d \/ (v = VNull /\ d = []))).
  { unfold e0. intros E. apply app_eq_nil in E. destruct E as [E1 E2]. split.
    - apply valid_id_ident. destruct (valid_id cname); [auto|discriminate].
    - destruct v; try discriminate E2; auto. }
  assert (AT : forall k, dget k (dpop "links" (dpop "nodes" d)) =
    if string_dec k "nodes" then None else if string_dec k "links" then None else dget k d).
  { intros k. destruct (string_dec k "nodes") as [->|N1].
    - rewrite dget_dpop_other; [apply dget_dpop_same|discriminate].
    - destruct (string_dec k "links") as [->|N2]; [apply dget_dpop_same|]. rewrite !dget_dpop_other; auto. }
  destruct (match dget "nodes" d with Some n => create_node_dict n | None => (Some [], []) end) as [[ns|] e1] eqn:N; [|discriminate].
  destruct (match dget "links" d with Some l => adjust_link_list l ("components." ++ cname ++ ".links")%string (dkeys ns) | None => ([], []) end)
    as [ls e2] eqn:L.
  injection H as <- H. apply app_eq_nil in H. destruct H as [H0 H]. apply app_eq_nil in H. destruct H as [-> H].
  apply map_eq_nil in H. subst e2. destruct (E H0) as [I V]. split; [auto|]. exists d. split; [auto|]. cbn [c_nodes c_links c_attrs].
  split; [|split; [|auto]].
  - unfold nodes_of. destruct (dget "nodes" d); [auto|injection N as <-; auto].
  - unfold links_of. destruct (dget "links" d); [exact L|injection L as <-; auto].
Qed.

Lemma defined_valid : forall cname v c, defines cname v c -> exists c', validate_component cname v = (Some c', []).
Proof.
  intros cname v c [I [d [V [N [L _]]]]]. apply valid_id_ident in I. unfold validate_component. rewrite I.
  assert (Q : match v with VDict d => d | _ => [] end = d) by (destruct V as [->|[-> ->]]; auto). rewrite Q.
  assert (Q2 : match v with VDict _ | VNull => [] | _ => [CCompType cname] end = []) by (destruct V as [->|[-> _]]; auto). rewrite Q2.
  unfold nodes_of in N. unfold links_of in L. destruct (dget "nodes" d) as [x|]; [rewrite N|rewrite N in L].
  - destruct (dget "links" d) as [y|]; [unfold dkeys; rewrite L|]; eexists; reflexivity.
  - destruct (dget "links" d) as [y|]; [unfold dkeys; cbn [map fst] in *; rewrite L|]; eexists; reflexivity.
Qed.

(* The components are accepted exactly when all definitions are valid; otherwise nothing is expanded. *)
Theorem component_definitions_exact : forall fuel start comps t,
  (forall cs, validate_components comps = (Some cs, []) -> map fst cs = map fst comps /\
     forall k c, In (k, c) cs -> exists v, In (k, v) comps /\ defines k v c) /\
  (expand_components fuel start comps t <> None <-> forall k v, In (k, v) comps -> exists c, defines k v c).
Proof.
  intros fuel start comps t. split.
  - induction comps as [|[k v] r IH]; intros cs H; cbn [validate_components] in H; [injection H as <-; split; [auto|intros k c []]|].
    destruct (validate_component k v) as [[c|] e1] eqn:C; [|discriminate].
    destruct (validate_components r) as [[cs'|] e2]; [|discriminate]. injection H as <- H. apply app_eq_nil in H. destruct H as [-> ->].
    destruct (IH _ eq_refl) as [I1 I2]. split; [cbn; rewrite I1; auto|]. intros k' c' [Q|Q].
    + injection Q as <- <-. exists v. split; [left; auto|apply comp_defined; auto].
    + destruct (I2 _ _ Q) as [w [W1 W2]]. exists w. split; [right; auto|auto].
  - assert (S : (exists cs, validate_components comps = (Some cs, [])) <-> forall k v, In (k, v) comps -> exists c, defines k v c).
    { induction comps as [|[k v] r IH]; cbn [validate_components].
      - split; [intros _ k v []|intros _; eexists; reflexivity].
      - split.
        + intros [cs H]. destruct (validate_component k v) as [[c|] e1] eqn:C; [|discriminate].
          destruct (validate_components r) as [[cs'|] e2] eqn:R; [|discriminate]. injection H as <- H. apply app_eq_nil in H. destruct H as [-> ->].
          intros k' v' [Q|Q]; [injection Q as <- <-; exists c; apply comp_defined; auto|]. apply (proj1 IH); eauto.
        + intros H. destruct (H k v) as [c D]; [left; auto|]. apply defined_valid in D. destruct D as [c' D]. rewrite D.
          destruct (proj2 IH) as [cs R]; [intros k' v' Q; apply H; right; auto|]. rewrite R. eexists. reflexivity. }
    rewrite <- S. unfold expand_components. destruct (validate_components comps) as [[cs|] e].
    + destruct e as [|x e].
      * split; [intros _; eexists; reflexivity|discriminate].
      * split; [congruence|intros [c H]; discriminate H].
    + split; [congruence|intros [c H]; discriminate H].
Qed.

Example bad_component_name : expand_components 3 1 [("1pod", VDict [])] pod_topo = None.
Proof. vm_compute. reflexivity. Qed.

Example pod_definitions : forall k v, In (k, v) pod_comps -> exists c, defines k v c.
Proof.
  apply (proj2 (component_definitions_exact 3 1 pod_comps pod_topo)). vm_compute. discriminate.
Qed.

(* ---- the limit on the number of nodes ---- *)

Lemma length_dset_le : forall A k (v : A) d, length d <= length (dset k v d) <= S (length d).
Proof.
  intros A k v. induction d as [|[a b] d IH]; cbn [dset length]; [lia|]. destruct (String.eqb k a); cbn [length]; lia.
Qed.
Lemma length_dpop_le : forall A k (d : dict A), length (dpop k d) <= length d.
Proof.
  intros A k. induction d as [|[a b] d IH]; cbn [dpop length]; [lia|]. destruct (String.eqb k a); cbn [length]; lia.
Qed.

Lemma include_nodes_limit : forall comps rec, (forall n nd c t t', rec n nd c t = Done t' -> length (t_nodes t') <= Nat.max 250 (length (t_nodes t))) ->
  forall ns n t t', include_nodes comps rec n ns t = Done t' -> length (t_nodes t') <= Nat.max 250 (length (t_nodes t)).
Proof.
  intros comps rec HR. induction ns as [|[y nd] ns IH]; intros n t t' H; cbn [include_nodes] in H.
  - injection H as <-. lia.
  - set (t0 := if valid_id (sub_name n y) then t else add_err (CBadId (sub_name n y)) t) in *. cbv zeta in H.
    assert (E0 : t_nodes t0 = t_nodes t) by (subst t0; destruct (valid_id _); auto).
    rewrite <- E0. clearbody t0. clear E0 t.
    destruct (dmem (sub_name n y) (t_nodes t0)); [exact (IH _ _ _ H)|].
    destruct (dget "include" nd) as [v|] eqn:E.
    + destruct (validate_include comps v) as [cc|]; [|exact (IH _ _ _ H)].
      destruct (rec (sub_name n y) nd cc t0) as [t1| |] eqn:R1; try discriminate H.
      apply HR in R1. apply IH in H. lia.
    + destruct (Nat.ltb_spec MAX_NODE_ID (length (t_nodes (set_nodes (dset (sub_name n y) nd (t_nodes t0)) t0)))) as [L|L]; [discriminate H|].
      apply IH in H. unfold MAX_NODE_ID in L. lia.
Qed.

Lemma expand_include_limit : forall start comps f n nd c t t', expand_include start comps f n nd c t = Done t' ->
  length (t_nodes t') <= Nat.max 250 (length (t_nodes t)).
Proof.
  intros start comps. induction f as [|f IH]; intros n nd c t t' H; cbn [expand_include] in H; [discriminate H|].
  destruct (include_nodes comps (expand_include start comps f) n (c_nodes c) t) as [t1| |] eqn:E; try discriminate H.
  injection H as <-. rewrite create_group_nodes, include_links_nodes.
  eapply include_nodes_limit; [exact IH|exact E].
Qed.

(* A topology grown by components has at most 250 nodes. *)
Theorem component_node_limit : forall fuel start comps t t', expand_components fuel start comps t = Some (Done t') ->
  length (t_nodes t') <= Nat.max 250 (length (t_nodes t)).
Proof.
  intros fuel start comps t t' H. unfold expand_components in H. destruct (validate_components comps) as [[cs|] [|x e]]; try discriminate H.
  injection H as H. unfold expand_topology in H. revert H. generalize (dkeys (t_nodes t)). intros names. revert t.
  induction names as [|n names IH]; intros t H; cbn [expand_loop] in H; [injection H as <-; lia|].
  destruct (dget n (t_nodes t)) as [d|]; [|auto]. destruct (dget "include" d) as [v|]; [|auto]. cbv zeta in H.
  pose proof (length_dpop_le _ n (t_nodes t)) as P.
  destruct (validate_include cs v) as [c|].
  - destruct (expand_include start cs fuel n d c _) as [t1| |] eqn:X; try discriminate H.
    apply expand_include_limit in X. apply IH in H. cbn [set_nodes t_nodes] in X. unfold node in *. lia.
  - apply IH in H. cbn [add_err set_nodes t_nodes] in H. unfold node in *. lia.
Qed.

Example pod_limit : match expand_components 3 1 pod_comps pod_topo with Some (Done t') => t_nodes t' <> t_nodes pod_topo | _ => False end.
Proof. vm_compute. discriminate. Qed.

Print Assumptions components_accepted.
Print Assumptions component_definitions_exact.
Print Assumptions component_node_limit.
