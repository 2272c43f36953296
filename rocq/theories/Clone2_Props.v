(* Properties C146 and C147: nodes, groups and names created by the node.clone plugin. *)
From Coq Require Import String Ascii ZArith Lia Bool List FinFun.
From Verif Require Import Base Box_Model Box_Props Dev_Model Text_Model Text_Props Types_Model Types_Props
  Intf_Model Intf_Props Lnk_Model Lnk_Props Clone_Model Clone_Props.
Import ListNotations.
Local Open Scope string_scope.
Local Open Scope list_scope.
Local Open Scope nat_scope.

(* ---------- what the nodes should be ---------- *)

(* a node that can be cloned: a positive number of clones, positive parameters, not a component *)
Definition cloneable (d : dict val) (start count step : Z) : Prop :=
  exists p, dget "clone" d = Some (VDict p) /\ wf (VDict p) /\
    dget "count" p = Some (VInt count) /\ (0 < count)%Z /\
    (dget "start" p = Some (VInt start) \/ dget "start" p = None /\ start = 1%Z) /\ (0 < start)%Z /\
    (dget "step" p = Some (VInt step) \/ dget "step" p = None /\ step = 1%Z) /\ (0 < step)%Z /\
    (forall k v, dget k p = Some v -> exists z, v = VInt z /\ (0 < z)%Z) /\
    dget "include" d = None.

(* the i-th clone, counting from zero, has number start + i * step *)
Definition number (start step : Z) (i : nat) : Z := (start + Z.of_nat i * step)%Z.

Section Names.
Variable name_of : string -> Z -> string.

Definition clone_names (n : string) (start count step : Z) : list string :=
  map (fun i => name_of n (number start step i)) (seq 0 (Z.to_nat count)).

(* data of a clone *)
Definition is_clone (d : dict val) (n : string) (num : Z) (d' : dict val) : Prop :=
  dget "name" d' = Some (VStr (name_of n num)) /\ dget "interfaces" d' = Some (VList []) /\
  dget "id" d' = shifted (num - 1) (dget "id" d) /\ dget "clone" d' = None /\
  forall k, ~ In k ["name"; "interfaces"; "id"; "clone"] -> dget k d' = dget k d.

(* ---------- proofs ---------- *)

Lemma clone_ids_names : forall n start count step,
  map (name_of n) (clone_ids start count step) = clone_names n start count step.
Proof. intros. unfold clone_ids, clone_names, number. apply map_map. Qed.

Lemma clone_data_spec : forall d n num, is_clone d n num (clone_data name_of (dpop "clone" d) n num).
Proof.
  intros d n num. unfold is_clone, clone_data.
  assert (ID : dget "id" (dpop "clone" d) = dget "id" d) by (apply dget_dpop_other; discriminate).
  rewrite ID.
  assert (G : forall k, ~ In k ["name"; "interfaces"; "clone"] ->
    dget k (dset "interfaces" (VList []) (dset "name" (VStr (name_of n num)) (dpop "clone" d))) = dget k d).
  { intros k K. rewrite dget_dset_other by (intros E; subst; apply K; cbn; tauto).
    rewrite dget_dset_other by (intros E; subst; apply K; cbn; tauto).
    apply dget_dpop_other. intros E; subst; apply K; cbn; tauto. }
  assert (N : dget "name" (dset "interfaces" (VList []) (dset "name" (VStr (name_of n num)) (dpop "clone" d))) = Some (VStr (name_of n num))).
  { rewrite dget_dset_other by discriminate. apply dget_dset_same. }
  assert (C : dget "clone" (dset "interfaces" (VList []) (dset "name" (VStr (name_of n num)) (dpop "clone" d))) = None).
  { rewrite !dget_dset_other by discriminate. apply dget_dpop_same. }
  assert (I : dget "interfaces" (dset "interfaces" (VList []) (dset "name" (VStr (name_of n num)) (dpop "clone" d))) = Some (VList [])).
  { apply dget_dset_same. }
  set (x := dset "interfaces" (VList []) (dset "name" (VStr (name_of n num)) (dpop "clone" d))) in *. clearbody x.
  assert (X : dget "id" x = dget "id" d).
  { apply G. cbn. intros [E|[E|[E|[]]]]; discriminate E. }
  assert (NOID : (forall z, dget "id" d <> Some (VInt z)) -> dget "id" x = shifted (num - 1) (dget "id" d)).
  { intros H. rewrite X. unfold shifted. destruct (dget "id" d) as [v|]; [|reflexivity]. destruct v; try reflexivity. exfalso. exact (H z eq_refl). }
  assert (O : forall k, ~ In k ["name"; "interfaces"; "id"; "clone"] -> dget k x = dget k d).
  { intros k K. apply G. intros J. apply K. cbn in J |- *. tauto. }
  destruct (dget "id" d) as [v|] eqn:D.
  - destruct v; try (refine (conj N (conj I (conj _ (conj C O)))); apply NOID; intros q; discriminate).
    split; [|split; [|split; [|split]]].
    + rewrite dget_dset_other by discriminate. exact N.
    + rewrite dget_dset_other by discriminate. exact I.
    + rewrite dget_dset_same. cbn [shifted]. f_equal. f_equal. lia.
    + rewrite dget_dset_other by discriminate. exact C.
    + intros k K. rewrite dget_dset_other by (intros E; subst; apply K; cbn; tauto). apply O; exact K.
  - refine (conj N (conj I (conj _ (conj C O)))). apply NOID. intros q; discriminate.
Qed.

Lemma fold_clones : forall node name ids nodes,
  NoDup (map (name_of name) ids) -> (forall x, In x (map (name_of name) ids) -> ~ In x (dkeys nodes)) ->
  dkeys (fold_left (add_clone name_of node name) ids nodes) = dkeys nodes ++ map (name_of name) ids /\
  (forall n, ~ In n (map (name_of name) ids) ->
     dget n (fold_left (add_clone name_of node name) ids nodes) = dget n nodes) /\
  (forall id, In id ids -> dget (name_of name id) (fold_left (add_clone name_of node name) ids nodes) =
     Some (clone_data name_of node name id)).
Proof.
  intros node name. induction ids as [|id r IH]; intros nodes ND FR; cbn [fold_left map].
  - rewrite app_nil_r. repeat split. intros id [].
  - cbn [map] in ND. inversion ND as [|? ? N1 N2]; subst.
    assert (NI : ~ In (name_of name id) (dkeys nodes)) by (apply FR; left; reflexivity).
    assert (A : add_clone name_of node name nodes id = dset (name_of name id) (clone_data name_of node name id) nodes).
    { unfold add_clone. apply dget_None in NI. rewrite NI. reflexivity. }
    rewrite A. destruct (IH (dset (name_of name id) (clone_data name_of node name id) nodes) N2) as [K [O D]].
    { intros x X. rewrite dkeys_dset_new by exact NI. intros J. apply in_app_or in J. destruct J as [J|[J|[]]].
      - apply FR with x; [right; exact X|exact J].
      - subst x. contradiction. }
    split; [|split].
    + rewrite K, dkeys_dset_new by exact NI. rewrite <- app_assoc. reflexivity.
    + intros n HN. rewrite O by (intros J; apply HN; right; exact J).
      apply dget_dset_other. intros E. apply HN. left. congruence.
    + intros id' [E|I].
      * subst id'. rewrite O by exact N1. apply dget_dset_same.
      * apply D; exact I.
Qed.

Lemma dkeys_dpop : forall A n (d : dict A), dkeys (dpop n d) = filter (fun k => negb (String.eqb n k)) (dkeys d).
Proof.
  intros A n. induction d as [|[k v] r IH]; cbn [dpop dkeys map fst filter]; [reflexivity|].
  destruct (String.eqb n k); cbn [negb]; [exact IH|]. cbn [dkeys map fst]. f_equal. exact IH.
Qed.

Lemma params_spec : forall d start count step, cloneable d start count step ->
  dget "count" (clone_params d) = Some (VInt count) /\ dget "start" (clone_params d) = Some (VInt start) /\
  dget "step" (clone_params d) = Some (VInt step) /\
  find (fun kv => negb (positive (snd kv))) (clone_params d) = None /\ dmem "include" (dpop "clone" d) = false.
Proof.
  intros d start count step [p [C [W [HC [CP [HS [SP [HT [TP [AP NI]]]]]]]]]].
  assert (E : clone_params d = mdict [("start", VInt 1); ("step", VInt 1)] p).
  { unfold clone_params. rewrite C, merge_dicts. reflexivity. }
  assert (ND : NoDup (dkeys p)) by (apply wf_VDict in W; exact (proj1 W)).
  assert (G : forall k, dget k (clone_params d) = mopt (dget k [("start", VInt 1); ("step", VInt 1)]) (dget k p)).
  { intros k. rewrite E. apply dget_mdict; exact ND. }
  split; [rewrite G, HC; reflexivity|]. split.
  { rewrite G. destruct HS as [HS|[HS HE]]; rewrite HS; [reflexivity|subst; reflexivity]. }
  split.
  { rewrite G. destruct HT as [HT|[HT HE]]; rewrite HT; [reflexivity|subst; reflexivity]. }
  split.
  - destruct (find (fun kv => negb (positive (snd kv))) (clone_params d)) as [[k v]|] eqn:F; [|reflexivity].
    apply find_some in F. destruct F as [I N]. cbn [snd] in N. exfalso.
    assert (D : dget k (clone_params d) = Some v).
    { apply dget_NoDup; [|exact I]. rewrite E. apply NoDup_mdict; [|exact ND]. constructor; [intros [Q|[]]; discriminate Q|].
      constructor; [intros []|constructor]. }
    assert (PV : positive v = true).
    { rewrite G in D. destruct (dget k p) as [w|] eqn:DP.
      - destruct (AP _ _ DP) as [z [EZ PZ]]. subst w.
        assert (EV : v = VInt z).
        { cbn [dget] in D. destruct (String.eqb k "start"); [cbn in D; congruence|].
          destruct (String.eqb k "step"); cbn in D; congruence. }
        subst v. cbn [positive]. apply Z.ltb_lt; exact PZ.
      - cbn [dget] in D. destruct (String.eqb k "start"); [cbn in D; injection D as D; subst; reflexivity|].
        destruct (String.eqb k "step"); cbn in D; [injection D as D; subst; reflexivity|discriminate D]. }
    rewrite PV in N. discriminate N.
  - unfold dmem. rewrite dget_dpop_other by discriminate. rewrite NI. reflexivity.
Qed.

(* the nodes of a topology after a node was cloned *)
Lemma clone_node_nodes : forall n d t start count step, cloneable d start count step ->
  exists lk gr vl vr errs, clone_node name_of n d t =
    (mk_topo (dpop n (fold_left (add_clone name_of (dpop "clone" d) n) (clone_ids start count step) (t_nodes t))) lk gr vl vr,
     map ELink errs) /\
    gr = map (fun '(g, x) => (g, if is_flag g then x else update_members n (clone_names n start count step) x)) (t_groups t).
Proof.
  intros n d t start count step H. destruct (params_spec _ _ _ _ H) as [P1 [P2 [P3 [P4 P5]]]].
  unfold clone_node. rewrite P1, P4, P5, P2, P3. cbn [int_of].
  rewrite clone_ids_names.
  destruct (t_links t) as [l|].
  - destruct (process_links "" (dkeys (fold_left (add_clone name_of (dpop "clone" d) n) (clone_ids start count step) (t_nodes t))) n
      (clone_names n start count step) l) as [x e].
    eexists _, _, _, _, _. split; reflexivity.
  - eexists _, _, _, _, _. split; reflexivity.
Qed.

(* A cloned node is replaced with the requested number of new nodes; every clone has the data of
   the node, a new name and the next identifier; all other nodes stay as they are. *)
Theorem clone_node_exact : forall n d t start count step, cloneable d start count step ->
  NoDup (clone_names n start count step) ->
  (forall x, In x (clone_names n start count step) -> ~ In x (dkeys (t_nodes t)) /\ x <> n) ->
  let t' := fst (clone_node name_of n d t) in
  dkeys (t_nodes t') = filter (fun k => negb (String.eqb n k)) (dkeys (t_nodes t)) ++ clone_names n start count step /\
  (forall m, m <> n -> ~ In m (clone_names n start count step) -> dget m (t_nodes t') = dget m (t_nodes t)) /\
  (forall i, i < Z.to_nat count -> exists d', dget (name_of n (number start step i)) (t_nodes t') = Some d' /\
     is_clone d n (number start step i) d').
Proof.
  intros n d t start count step H ND FR. destruct (clone_node_nodes n d t _ _ _ H) as [lk [gr [vl [vr [errs [E _]]]]]].
  rewrite E. cbn [fst t_nodes]. clear E.
  rewrite <- clone_ids_names in ND, FR. rewrite <- !clone_ids_names.
  destruct (fold_clones (dpop "clone" d) n (clone_ids start count step) (t_nodes t) ND) as [K [O D]].
  { intros x X. apply FR; exact X. }
  split; [|split].
  - rewrite dkeys_dpop, K, filter_app. f_equal.
    assert (FA : forall x, In x (map (name_of n) (clone_ids start count step)) -> negb (String.eqb n x) = true).
    { intros x X. apply negb_true_iff, String.eqb_neq. intros Q. apply (proj2 (FR x X)). congruence. }
    clear -FA. induction (map (name_of n) (clone_ids start count step)) as [|x r IH]; [reflexivity|].
    cbn [filter]. rewrite FA by (left; reflexivity). f_equal. apply IH. intros y Y. apply FA. right; exact Y.
  - intros m MN MI. rewrite dget_dpop_other by exact MN. apply O; exact MI.
  - intros i HI. assert (I : In (number start step i) (clone_ids start count step)).
    { unfold clone_ids. apply in_map_iff. exists i. split; [reflexivity|]. apply in_seq. lia. }
    exists (clone_data name_of (dpop "clone" d) n (number start step i)). split; [|apply clone_data_spec].
    rewrite dget_dpop_other; [apply D; exact I|]. apply FR. apply in_map; exact I.
Qed.

(* A node with the name of a clone keeps its own data and gets the rest from the cloned node. *)
Theorem clone_override : forall n d t start step x, cloneable d start 1 step -> wf (VDict x) ->
  name_of n start <> n -> dget (name_of n start) (t_nodes t) = Some x ->
  exists d' c, dget (name_of n start) (t_nodes (fst (clone_node name_of n d t))) = Some d' /\
    is_clone d n start c /\
    forall p v, leaf p (VDict d') v <-> leaf p (VDict x) v \/ (leaf p (VDict c) v /\ ~ overridden p (VDict x)).
Proof.
  intros n d t start step x H W NN HX. destruct (clone_node_nodes n d t _ _ _ H) as [lk [gr [vl [vr [errs [E _]]]]]].
  rewrite E. cbn [fst t_nodes]. clear E.
  assert (CI : clone_ids start 1 step = [start]).
  { unfold clone_ids. change (Z.to_nat 1) with 1. cbn [seq map]. f_equal. lia. }
  rewrite CI. cbn [fold_left]. rewrite dget_dpop_other by exact NN.
  unfold add_clone. rewrite HX, dget_dset_same. eexists _, (clone_data name_of (dpop "clone" d) n start).
  split; [reflexivity|]. split; [apply clone_data_spec|]. intros p v.
  assert (EM : VDict (as_dict (merge (VDict (clone_data name_of (dpop "clone" d) n start)) (VDict x))) =
               merge (VDict (clone_data name_of (dpop "clone" d) n start)) (VDict x)) by (rewrite merge_dicts; reflexivity).
  rewrite EM. apply merge_leaves; exact W.
Qed.

(* a positive integer *)
Definition pos_int (v : val) : Prop := exists z, v = VInt z /\ (0 < z)%Z.

Lemma positive_false : forall v, positive v = false <-> ~ pos_int v.
Proof.
  intros v. unfold pos_int. destruct v as [| |z| | |]; cbn [positive];
    try (split; [intros _ [y [Q _]]; discriminate Q|reflexivity]).
  rewrite Z.ltb_ge. split.
  - intros L [y [Q P]]. injection Q as Q. subst y. lia.
  - intros N. destruct (Z.le_gt_cases z 0) as [L|L]; [exact L|]. exfalso. apply N. exists z. split; [reflexivity|lia].
Qed.

Lemma bad_parameter : forall p : dict val,
  (exists k v, dget k p = Some v /\ positive v = false) <-> exists k v, dget k p = Some v /\ ~ pos_int v.
Proof. intros p. split; intros [k [v [D P]]]; exists k, v; (split; [exact D|]); apply positive_false; exact P. Qed.

(* Nodes that cannot be cloned are reported and nothing is changed. *)
Theorem clone_rejected : forall n d t p, dget "clone" d = Some (VDict p) -> wf (VDict p) ->
  (snd (clone_node name_of n d t) = [ENoCount n] <-> dget "count" p = None) /\
  (dget "count" p <> None ->
   (exists k, snd (clone_node name_of n d t) = [EParam n k]) <->
   exists k v, dget k p = Some v /\ ~ pos_int v) /\
  (dget "count" p <> None -> (forall k v, dget k p = Some v -> pos_int v) ->
   (snd (clone_node name_of n d t) = [EInclude n] <-> dget "include" d <> None)) /\
  (dget "count" p = None \/ (exists k v, dget k p = Some v /\ ~ pos_int v) \/ dget "include" d <> None ->
   fst (clone_node name_of n d t) = t).
Proof.
  intros n d t p C W. rewrite <- !bad_parameter.
  assert (HP : (forall k v, dget k p = Some v -> pos_int v) -> forall k v, dget k p = Some v -> positive v = true).
  { intros A k v D. destruct (positive v) eqn:Q; [reflexivity|]. exfalso. apply positive_false in Q. exact (Q (A _ _ D)). }
  assert (ND : NoDup (dkeys p)) by (apply wf_VDict in W; exact (proj1 W)).
  assert (E : clone_params d = mdict [("start", VInt 1); ("step", VInt 1)] p).
  { unfold clone_params. rewrite C, merge_dicts. reflexivity. }
  assert (G : forall k, dget k (clone_params d) = mopt (dget k [("start", VInt 1); ("step", VInt 1)]) (dget k p)).
  { intros k. rewrite E. apply dget_mdict; exact ND. }
  assert (GC : dget "count" (clone_params d) = dget "count" p) by (rewrite G; reflexivity).
  assert (ND2 : NoDup (dkeys (clone_params d))).
  { rewrite E. apply NoDup_mdict; [|exact ND]. constructor; [intros [Q|[]]; discriminate Q|]. constructor; [intros []|constructor]. }
  assert (PG : forall k v, dget k p = Some v -> exists w, dget k (clone_params d) = Some w /\ positive w = positive v).
  { intros k v D. rewrite G, D. cbn [dget]. destruct (String.eqb k "start").
    - exists (merge (VInt 1) v). split; [reflexivity|]. rewrite merge_scalar_l by reflexivity. reflexivity.
    - destruct (String.eqb k "step").
      + exists (merge (VInt 1) v). split; [reflexivity|]. rewrite merge_scalar_l by reflexivity. reflexivity.
      + exists v. split; reflexivity. }
  assert (FB : (exists k v, dget k p = Some v /\ positive v = false) <->
               exists kv, find (fun kv => negb (positive (snd kv))) (clone_params d) = Some kv).
  { split.
    - intros [k [v [D P]]]. destruct (PG _ _ D) as [w [DW PW]].
      destruct (find (fun kv => negb (positive (snd kv))) (clone_params d)) as [kv|] eqn:F; [exists kv; reflexivity|].
      apply dget_In in DW. pose proof (find_none _ _ F _ DW) as Q. cbn [snd] in Q. rewrite PW, P in Q. discriminate Q.
    - intros [[k w] F]. apply find_some in F. destruct F as [I N]. cbn [snd] in N.
      assert (D : dget k (clone_params d) = Some w) by (apply dget_NoDup; assumption).
      apply negb_true_iff in N. destruct (dget k p) as [v|] eqn:DP.
      + destruct (PG _ _ DP) as [w2 [DW PW]]. exists k, v. split; [exact DP|]. congruence.
      + exfalso. rewrite G, DP in D. cbn [dget] in D.
        destruct (String.eqb k "start"); [cbn in D; injection D as D; subst; discriminate N|].
        destruct (String.eqb k "step"); cbn in D; [injection D as D; subst; discriminate N|discriminate D]. }
  assert (NI : dmem "include" (dpop "clone" d) = true <-> dget "include" d <> None).
  { unfold dmem. rewrite dget_dpop_other by discriminate. destruct (dget "include" d); split; intros Q; try reflexivity; try discriminate.
    exfalso; apply Q; reflexivity. }
  unfold clone_node. rewrite GC.
  destruct (dget "count" p) as [cv|] eqn:CV.
  2:{ cbn [fst snd]. split; [split; reflexivity|]. split; [intros Q; exfalso; apply Q; reflexivity|].
      split; [intros Q; exfalso; apply Q; reflexivity|]. intros _; reflexivity. }
  destruct (find (fun kv => negb (positive (snd kv))) (clone_params d)) as [[k w]|] eqn:F.
  { assert (B : exists k v, dget k p = Some v /\ positive v = false) by (apply FB; exists (k, w); reflexivity).
    cbn [fst snd]. split; [split; discriminate|]. split.
    { intros _. split; intros _; [exact B|exists k; reflexivity]. }
    split; [|intros _; reflexivity].
    intros _ AP. exfalso. destruct B as [k' [v' [D P]]]. rewrite (HP AP _ _ D) in P. discriminate P. }
  assert (NB : ~ exists k v, dget k p = Some v /\ positive v = false).
  { intros B. apply FB in B. destruct B as [kv B]. discriminate B. }
  destruct (dmem "include" (dpop "clone" d)) eqn:IN.
  { cbn [fst snd]. split; [split; discriminate|]. split.
    { intros _. split; [intros [k Q]; discriminate Q|intros B; contradiction]. }
    split; [|intros _; reflexivity]. intros _ _. split; intros _; [apply NI; reflexivity|reflexivity]. }
  assert (NE : forall (e : list lerr) (x : cerr), (forall y, x <> ELink y) -> map ELink e <> [x]).
  { intros e x X Q. destruct e as [|y r]; [discriminate Q|]. cbn [map] in Q. injection Q as Q1 Q2. exact (X y (eq_sym Q1)). }
  assert (NINC : dget "include" d = None).
  { destruct (dget "include" d) eqn:Q; [|reflexivity]. exfalso. assert (false = true) by (apply NI; discriminate). discriminate. }
  cbn [fst snd].
  match goal with |- context [map ELink ?e] => set (errs := e) end. clearbody errs.
  split; [split; [intros Q; exfalso; revert Q; apply NE; discriminate|discriminate]|]. split.
  { intros _. split; [intros [k Q]; exfalso; revert Q; apply NE; discriminate|intros B; contradiction]. }
  split.
  { intros _ _. split; [intros Q; exfalso; revert Q; apply NE; discriminate|intros Q; contradiction]. }
  intros [Q|[Q|Q]]; [discriminate Q|contradiction|contradiction].
Qed.

(* The clones of a node join its groups and the node leaves them. *)
Theorem clone_groups : forall n d t start count step g gd m, cloneable d start count step ->
  dget g (t_groups t) = Some gd -> is_flag g = false ->
  dget "members" gd = Some (VList (map VStr m)) -> NoDup m ->
  exists gd' m', dget g (t_groups (fst (clone_node name_of n d t))) = Some gd' /\
    dget "members" gd' = Some (VList (map VStr m')) /\
    (forall x, In x m' <-> (In x m /\ x <> n) \/ (In n m /\ In x (clone_names n start count step))) /\
    forall k, k <> "members" -> dget k gd' = dget k gd.
Proof.
  intros n d t start count step g gd m H G FL M ND. destruct (clone_node_nodes n d t _ _ _ H) as [lk [gr [vl [vr [errs [E EG]]]]]].
  rewrite E. cbn [fst t_groups]. subst gr. clear E.
  exists (update_members n (clone_names n start count step) gd).
  assert (DG : dget g (map (fun '(g0, x) => (g0, if is_flag g0 then x else update_members n (clone_names n start count step) x)) (t_groups t)) =
               Some (update_members n (clone_names n start count step) gd)).
  { clear -G FL. induction (t_groups t) as [|[k x] r IH]; [discriminate G|]. cbn [map dget] in G |- *.
    destruct (String.eqb_spec g k) as [Q|Q]; [|exact (IH G)]. subst k. injection G as G. subst x. rewrite FL. reflexivity. }
  assert (EX : existsb (veqb (VStr n)) (map VStr m) = memS n m).
  { clear. unfold memS. induction m as [|x r IH]; [reflexivity|]. cbn [map existsb]. rewrite IH. reflexivity. }
  assert (RM : In n m -> exists m1, remove_first (VStr n) (map VStr m) = map VStr m1 /\ forall x, In x m1 <-> In x m /\ x <> n).
  { intros I. apply in_split in I. destruct I as [a [b EQ]]. subst m. exists (a ++ b).
    apply NoDup_remove in ND. destruct ND as [_ NI]. split.
    - rewrite map_app. cbn [map]. rewrite remove_first_hit, map_app; [reflexivity|].
      intros J. apply in_map_iff in J. destruct J as [y [Y1 Y2]]. injection Y1 as Y1. subst y. apply NI. apply in_or_app. left; exact Y2.
    - intros x. split.
      + intros J. split; [|intros Q; subst x; contradiction]. apply in_app_or in J. apply in_or_app. cbn. tauto.
      + intros [J Q]. apply in_app_or in J. apply in_or_app. cbn in J. destruct J as [J|[J|J]]; [left; exact J|congruence|right; exact J]. }
  assert (UM : update_members n (clone_names n start count step) gd =
    if memS n m then dset "members" (VList (remove_first (VStr n) (map VStr m) ++ map VStr (clone_names n start count step))) gd else gd).
  { unfold update_members. rewrite M, EX. reflexivity. }
  rewrite UM in DG |- *. destruct (memS n m) eqn:MM.
  - apply memS_true in MM. destruct (RM MM) as [m1 [R1 R2]]. exists (m1 ++ clone_names n start count step).
    split; [exact DG|]. split; [rewrite dget_dset_same, R1, map_app; reflexivity|]. split.
    + intros x. rewrite in_app_iff, R2. tauto.
    + intros k K. apply dget_dset_other; exact K.
  - apply memS_false in MM. exists m. split; [exact DG|]. split; [exact M|]. split; [|reflexivity].
    intros x. split.
    + intros I. left. split; [exact I|]. intros Q; subst; contradiction.
    + intros [[I _]|[I _]]; [exact I|contradiction].
Qed.

(* The links of the topology, of VLANs and of VRFs are all replaced; every error found in a link is
   reported with the name of the link. *)
Definition relinked (nodes : list string) (n : string) (clones : list string) (l l' : list val) : Prop :=
  exists css, l' = filter (fun v => negb (involves nodes n v)) l ++ map VDict (concat css) /\
    Forall2 (copies_of nodes n clones) (filter (involves nodes n) l) css.

Definition link_errors (nodes : list string) (prefix : string) (l : list val) : list lerr :=
  concat (map (fun i => snd (adjust_link_object (nth i l VNull) (prefix ++ "links[" ++ dec (S i) ++ "]")%string nodes))
              (seq 0 (length l))).

Lemma process_errors : forall f prefix nodes todo cnt cur,
  snd (process_loop f prefix nodes cnt todo cur) =
  concat (map (fun i => snd (adjust_link_object (nth (i - cnt) todo VNull) (prefix ++ "links[" ++ dec (S i) ++ "]")%string nodes))
              (seq cnt (length todo))).
Proof.
  intros f prefix nodes. induction todo as [|l r IH]; intros cnt cur; cbn [process_loop length seq map concat]; [reflexivity|].
  assert (T : forall cur', snd (process_loop f prefix nodes (S cnt) r cur') =
    concat (map (fun i => snd (adjust_link_object (nth (i - cnt) (l :: r) VNull) (prefix ++ "links[" ++ dec (S i) ++ "]")%string nodes))
              (seq (S cnt) (length r)))).
  { intros cur'. rewrite IH. f_equal. apply map_ext_in. intros i I. apply in_seq in I.
    replace (i - cnt) with (S (i - S cnt)) by lia. reflexivity. }
  rewrite Nat.sub_diag. change (nth 0 (l :: r) VNull) with l.
  destruct (adjust_link_object l (prefix ++ "links[" ++ dec (S cnt) ++ "]")%string nodes) as [[d|] e]; cbn [snd].
  - destruct (f cnt d) as [|c cl].
    + specialize (T cur). destruct (process_loop f prefix nodes (S cnt) r cur) as [[a b] e']. cbn [snd] in T |- *. rewrite T. reflexivity.
    + specialize (T (remove_first l cur ++ VDict c :: map VDict cl)).
      destruct (process_loop f prefix nodes (S cnt) r (remove_first l cur ++ VDict c :: map VDict cl)) as [[a b] e'].
      cbn [snd] in T |- *. rewrite T. reflexivity.
  - specialize (T cur). destruct (process_loop f prefix nodes (S cnt) r cur) as [[a b] e']. cbn [snd] in T |- *. rewrite T. reflexivity.
Qed.

Lemma process_links_errors : forall prefix nodes n clones l,
  snd (process_links prefix nodes n clones l) = link_errors nodes prefix l.
Proof.
  intros prefix nodes n clones l. unfold process_links, link_errors.
  pose proof (process_errors (clone_item nodes n clones) prefix nodes l 0 l) as E.
  destruct (process_loop (clone_item nodes n clones) prefix nodes 0 l l) as [[a b] e]. cbn [snd] in E |- *. rewrite E.
  f_equal. apply map_ext. intros i. rewrite Nat.sub_0_r. reflexivity.
Qed.

Lemma dget_mapv : forall A B (f : string -> A -> B) k d,
  dget k (map (fun '(j, x) => (j, f j x)) d) = option_map (f k) (dget k d).
Proof.
  intros A B f k. induction d as [|[j x] r IH]; cbn [map dget]; [reflexivity|].
  destruct (String.eqb_spec k j) as [E|E]; [subst j; reflexivity|exact IH].
Qed.

Theorem clone_node_links : forall n d t start count step, cloneable d start count step ->
  NoDup (clone_names n start count step) ->
  (forall x, In x (clone_names n start count step) -> ~ In x (dkeys (t_nodes t))) ->
  let t' := fst (clone_node name_of n d t) in
  let clones := clone_names n start count step in
  let nodes := dkeys (t_nodes t) ++ clones in
  (t_links t = None -> t_links t' = None) /\
  (forall l, t_links t = Some l -> exists l', t_links t' = Some l' /\ relinked nodes n clones l l') /\
  dkeys (t_vlans t') = dkeys (t_vlans t) /\ dkeys (t_vrfs t') = dkeys (t_vrfs t) /\
  (forall k l, dget k (t_vlans t) = Some l -> exists l', dget k (t_vlans t') = Some l' /\ relinked nodes n clones l l') /\
  (forall k l, dget k (t_vrfs t) = Some l -> exists l', dget k (t_vrfs t') = Some l' /\ relinked nodes n clones l l') /\
  snd (clone_node name_of n d t) =
    map ELink (match t_links t with Some l => link_errors nodes "" l | None => [] end ++
               flat_map (fun kl => link_errors nodes ("vlans." ++ fst kl ++ ".")%string (snd kl)) (t_vlans t) ++
               flat_map (fun kl => link_errors nodes ("vrfs." ++ fst kl ++ ".")%string (snd kl)) (t_vrfs t)).
Proof.
  intros n d t start count step H ND FR. destruct (params_spec _ _ _ _ H) as [P1 [P2 [P3 [P4 P5]]]].
  assert (HC : clone_names n start count step <> []).
  { destruct H as [p [_ [_ [_ [CP _]]]]]. unfold clone_names. destruct (Z.to_nat count) eqn:Z; [lia|]. discriminate. }
  unfold clone_node. rewrite P1, P4, P5, P2, P3. cbn [int_of]. clear P1 P2 P3 P4 P5.
  rewrite <- clone_ids_names in ND, FR.
  destruct (fold_clones (dpop "clone" d) n (clone_ids start count step) (t_nodes t) ND FR) as [K _].
  rewrite K, !clone_ids_names. clear K ND FR H.
  set (clones := clone_names n start count step) in *. clearbody clones.
  set (nodes := dkeys (t_nodes t) ++ clones). clearbody nodes.
  assert (R : forall prefix l, relinked nodes n clones l (fst (process_links prefix nodes n clones l))).
  { intros prefix l. exact (@clone_links_exact prefix nodes n clones l HC). }
  assert (V : forall what x, snd (process_dict what nodes n clones x) =
    flat_map (fun kl => link_errors nodes (what ++ "." ++ fst kl ++ ".")%string (snd kl)) x).
  { intros what x. unfold process_dict. cbn [snd]. apply flat_map_ext. intros [k l]. cbn [fst snd]. apply process_links_errors. }
  assert (KD : forall what x, dkeys (fst (process_dict what nodes n clones x)) = dkeys x).
  { intros what x. unfold process_dict, dkeys. cbn [fst]. rewrite map_map. apply map_ext. intros [k l]. reflexivity. }
  assert (D : forall what x k l, dget k x = Some l ->
    exists l', dget k (fst (process_dict what nodes n clones x)) = Some l' /\ relinked nodes n clones l l').
  { intros what x k l E. unfold process_dict. cbn [fst].
    rewrite (dget_mapv _ _ (fun k l => fst (process_links (what ++ "." ++ k ++ ".")%string nodes n clones l))), E.
    eexists. split; [reflexivity|]. apply R. }
  cbn [fst snd t_links t_vlans t_vrfs]. split.
  { intros E. rewrite E. reflexivity. }
  split.
  { intros l E. rewrite E. pose proof (R "" l) as RL. destruct (process_links "" nodes n clones l) as [x e]. cbn [fst] in RL |- *.
    exists x. split; [reflexivity|exact RL]. }
  split; [apply KD|]. split; [apply KD|]. split; [apply D|]. split; [apply D|].
  f_equal. rewrite !V. f_equal. destruct (t_links t) as [l|]; [|reflexivity].
  pose proof (process_links_errors "" nodes n clones l) as PE. destruct (process_links "" nodes n clones l) as [x e].
  exact PE.
Qed.

(* the names created for a node *)
Definition creates (kv : string * dict val) (names : list string) : Prop :=
  (dget "clone" (snd kv) = None /\ names = []) \/
  (exists start count step, cloneable (snd kv) start count step /\ names = clone_names (fst kv) start count step).

Lemma clone_nodes_keys : forall l nss, Forall2 creates l nss -> forall t pre post,
  dkeys (t_nodes t) = pre ++ map fst l ++ post -> NoDup ((pre ++ map fst l ++ post) ++ concat nss) ->
  dkeys (t_nodes (fst (clone_nodes name_of l t))) =
    pre ++ map fst (filter (fun kv => negb (dmem "clone" (snd kv))) l) ++ post ++ concat nss /\
  (forall m, In m pre \/ In m post \/ In m (map fst (filter (fun kv => negb (dmem "clone" (snd kv))) l)) ->
     dget m (t_nodes (fst (clone_nodes name_of l t))) = dget m (t_nodes t)) /\
  forall e, In e (snd (clone_nodes name_of l t)) -> exists x, e = ELink x.
Proof.
  intros l nss F. induction F as [|[n d] names l nss H F IH]; intros t pre post K ND.
  - cbn [clone_nodes fst snd map filter concat app] in *. rewrite app_nil_r, K. split; [reflexivity|]. split; [reflexivity|]. intros e [].
  - cbn [map fst concat] in K, ND. destruct H as [[C E]|[start [count [step [C E]]]]]; cbn [fst snd] in C, E; subst names.
    + assert (DM : dmem "clone" d = false) by (unfold dmem; rewrite C; reflexivity).
      cbn [clone_nodes filter snd]. rewrite DM. cbn [negb map fst].
      destruct (IH t (pre ++ [n]) post) as [I1 [I2 I3]].
      { rewrite K, <- app_assoc. reflexivity. }
      { cbn [app] in ND. rewrite <- !app_assoc in ND. cbn [app] in ND. rewrite <- ?app_assoc in ND.
        rewrite <- !app_assoc. cbn [app]. rewrite <- ?app_assoc. exact ND. }
      split; [rewrite I1, <- app_assoc; reflexivity|]. split; [|exact I3].
      intros m [M|[M|[M|M]]]; apply I2.
      * left. apply in_or_app. left; exact M.
      * right; left; exact M.
      * left. apply in_or_app. right. left. exact M.
      * right; right; exact M.
    + assert (DM : dmem "clone" d = true) by (destruct C as [p [C _]]; unfold dmem; rewrite C; reflexivity).
      cbn [clone_nodes filter snd]. rewrite DM. cbn [negb].
      pose proof (clone_node_nodes n d t _ _ _ C) as CN.
      assert (NDA := ND). rewrite app_assoc in NDA. apply NoDup_app_elim in NDA. destruct NDA as [NDA _].
      apply NoDup_app_elim in NDA. destruct NDA as [NDK [NDC DIS]].
      assert (FRESH : forall x, In x (clone_names n start count step) -> ~ In x (dkeys (t_nodes t)) /\ x <> n).
      { intros x X. rewrite K. split; [intros J; exact (DIS x J X)|]. intros Q; subst x. apply (DIS n); [|exact X].
        apply in_or_app. right. left. reflexivity. }
      destruct (clone_node_exact n d t start count step C NDC FRESH) as [K1 [O1 _]].
      destruct CN as [lk [gr [vl [vr [errs [E _]]]]]].
      destruct (clone_node name_of n d t) as [t1 e1] eqn:CE. cbn [fst] in K1, O1.
      injection E as E1 E2. subst e1. clear E1.
      assert (KF : dkeys (t_nodes t1) = pre ++ map fst l ++ (post ++ clone_names n start count step)).
      { rewrite K1, K. clear -NDK. rewrite filter_app. cbn [app filter]. rewrite String.eqb_refl. cbn [negb].
        apply NoDup_remove in NDK. destruct NDK as [_ NI].
        assert (FI : forall x, ~ In n x -> filter (fun k => negb (String.eqb n k)) x = x).
        { induction x as [|y r IH]; intros Q; [reflexivity|]. cbn [filter].
          assert (S : String.eqb n y = false) by (apply String.eqb_neq; intros S; apply Q; left; congruence).
          rewrite S. cbn [negb]. f_equal. apply IH. intros J. apply Q. right; exact J. }
        rewrite !FI.
        - rewrite <- !app_assoc. reflexivity.
        - intros J. apply NI. apply in_or_app. right; exact J.
        - intros J. apply NI. apply in_or_app. left; exact J. }
      destruct (IH t1 pre (post ++ clone_names n start count step) KF) as [I1 [I2 I3]].
      { clear -ND. rewrite <- !app_assoc in ND. cbn [app] in ND. rewrite <- ?app_assoc in ND. apply NoDup_remove_1 in ND.
        rewrite <- !app_assoc. exact ND. }
      destruct (clone_nodes name_of l t1) as [t2 e2] eqn:CL. cbn [fst snd] in I1, I2, I3 |- *.
      split; [rewrite I1, <- !app_assoc; reflexivity|]. split.
      * intros m M.
        assert (IK : In m (pre ++ map fst l ++ post)).
        { destruct M as [M|[M|M]]; apply in_or_app.
          - left; exact M.
          - right. apply in_or_app. right; exact M.
          - right. apply in_or_app. left. apply in_map_iff in M. destruct M as [kv [M1 M2]]. apply filter_In in M2.
            rewrite <- M1. apply in_map. exact (proj1 M2). }
        rewrite I2; [apply O1|].
        -- intros Q; subst m. clear -NDK IK. cbn [app] in NDK. apply NoDup_remove in NDK. destruct NDK as [_ NI]. contradiction.
        -- intros Q. apply (DIS m); [|exact Q]. apply in_app_or in IK. apply in_or_app. destruct IK as [IK|IK]; [left; exact IK|].
           right. right. exact IK.
        -- destruct M as [M|[M|M]]; [left; exact M|right; left; apply in_or_app; left; exact M|right; right; exact M].
      * intros e I. apply in_app_or in I. destruct I as [I|I]; [|exact (I3 e I)].
        apply in_map_iff in I. destruct I as [x [X _]]. exists x. congruence.
Qed.

(* The whole topology: the cloned nodes are gone, the other nodes are unchanged, the clones follow
   in the order of the cloned nodes. *)
Theorem expanded_nodes : forall t nss, Forall2 creates (t_nodes t) nss ->
  NoDup (dkeys (t_nodes t) ++ concat nss) ->
  let t' := fst (topology_expand name_of t) in
  dkeys (t_nodes t') = map fst (filter (fun kv => negb (dmem "clone" (snd kv))) (t_nodes t)) ++ concat nss /\
  (forall m d, dget m (t_nodes t) = Some d -> dget "clone" d = None -> dget m (t_nodes t') = Some d) /\
  forall e, In e (snd (topology_expand name_of t)) -> exists x, e = ELink x.
Proof.
  intros t nss F ND t'. unfold topology_expand in t' |- *.
  destruct (clone_nodes_keys _ _ F t [] []) as [K [O E]].
  { cbn [app]. rewrite app_nil_r. reflexivity. }
  { cbn [app]. rewrite app_nil_r. exact ND. }
  split; [exact K|]. split; [|exact E].
  intros m d D C. unfold t'. rewrite O; [exact D|]. right; right. apply in_map_iff. exists (m, d). split; [reflexivity|].
  apply filter_In. split; [apply dget_In; exact D|]. cbn [snd]. unfold dmem. rewrite C. reflexivity.
Qed.
End Names.

(* ---------- names ---------- *)

Lemma digit_no_dash : forall m, digit (m mod 10) <> "-"%char.
Proof.
  intros m E. assert (H : nat_of_ascii (digit (m mod 10)) = nat_of_ascii "-"%char) by congruence.
  assert (B : m mod 10 < 10) by (apply Nat.mod_upper_bound; lia).
  unfold digit in H. rewrite nat_ascii_embedding in H by lia. change (nat_of_ascii "-"%char) with 45 in H. lia.
Qed.

Lemma dec_loop_dash : forall f n acc, no_char "-" acc -> no_char "-" (dec_loop f n acc).
Proof.
  induction f as [|f IH]; intros n acc H; cbn [dec_loop]; [exact H|].
  assert (A : no_char "-" (String (digit (n mod 10)) acc)).
  { apply no_char_cons. split; [apply digit_no_dash|exact H]. }
  destruct (n <? 10); [exact A|apply IH; exact A].
Qed.

Lemma last_dash : forall a b x y, no_char "-" x -> no_char "-" y ->
  (a ++ String "-" x)%string = (b ++ String "-" y)%string -> a = b /\ x = y.
Proof.
  assert (NA : forall b y x, no_char "-" x -> x <> (b ++ String "-" y)%string).
  { induction b as [|c b IH]; intros y x H E; subst x; cbn [append] in H; apply no_char_cons in H.
    - destruct H as [H _]. apply H; reflexivity.
    - destruct H as [_ H]. exact (IH _ _ H eq_refl). }
  induction a as [|c a IH]; intros [|c' b] x y HX HY E; cbn [append] in E.
  - injection E as E. split; [reflexivity|exact E].
  - injection E as E1 E2. exfalso. exact (NA _ _ _ HX E2).
  - injection E as E1 E2. exfalso. exact (NA _ _ _ HY (eq_sym E2)).
  - injection E as E1 E2. destruct (IH _ _ _ HX HY E2) as [Q1 Q2]. subst. split; reflexivity.
Qed.

Lemma pad2_inj : forall a b, pad2 a = pad2 b -> a = b.
Proof.
  assert (R : forall a, read_dec (pad2 a) 0 = a).
  { intros a. unfold pad2. destruct (a <? 10); [|apply dec_read]. cbn [append read_dec].
    change (10 * 0 + (nat_of_ascii "0"%char - 48)) with 0. apply dec_read. }
  intros a b E. rewrite <- (R a), <- (R b), E. reflexivity.
Qed.

Lemma pad2_dash : forall a, no_char "-" (pad2 a).
Proof.
  intros a. assert (D : no_char "-" (dec a)) by (apply dec_loop_dash; intros []).
  unfold pad2. destruct (a <? 10); [|exact D]. apply no_char_cons. split; [discriminate|exact D].
Qed.

(* Clones with default names are distinct, and clones of different nodes are distinct when the first
   13 characters of the names of the nodes differ. *)
Theorem default_names_distinct : forall n m i j, (0 < i)%Z -> (0 < j)%Z ->
  (default_name n i = default_name m j <-> substring 0 13 n = substring 0 13 m /\ i = j).
Proof.
  intros n m i j HI HJ. unfold default_name. cbn [append]. split.
  - intros E. apply last_dash in E; [|apply pad2_dash|apply pad2_dash]. destruct E as [E1 E2]. split; [exact E1|].
    apply pad2_inj in E2. lia.
  - intros [E1 E2]. rewrite E1, E2. reflexivity.
Qed.

Theorem default_names_nodup : forall n start count step, (0 < start)%Z -> (0 < step)%Z ->
  NoDup (clone_names default_name n start count step).
Proof.
  intros n start count step HS HT. unfold clone_names.
  apply Injective_map_NoDup; [|apply seq_NoDup].
  intros i j E. apply default_names_distinct in E; unfold number in *; [|nia|nia]. destruct E as [_ E]. nia.
Qed.

(* Identifiers of clones: consecutive for step 1. *)
Theorem clone_ids_distinct : forall start step i j, (0 < step)%Z -> number start step i = number start step j -> i = j.
Proof. intros start step i j H E. unfold number in E. nia. Qed.

(* ---------- a case ---------- *)

Definition host (k : Z) : dict val :=
  [("name", VStr "h"); ("device", VStr "linux"); ("id", VInt 10); ("interfaces", VList []);
   ("clone", VDict [("count", VInt k)])].
Definition sw : dict val := [("name", VStr "s"); ("device", VStr "frr"); ("interfaces", VList [])].

Definition t0 : topo :=
  mk_topo [("h", host 2); ("s", sw)]
    (Some [VStr "s-h"; VDict [("s", VDict [("ifindex", VInt 4)]); ("h", VDict [("mtu", VInt 1600)])]; VStr "s"])
    [("_auto_create", []); ("hosts", [("members", VList [VStr "h"; VStr "s"])])] [] [].

Example t0_nodes : dkeys (t_nodes (fst (topology_expand default_name t0))) = ["s"; "h-01"; "h-02"].
Proof. vm_compute. reflexivity. Qed.

Example t0_groups : dget "hosts" (t_groups (fst (topology_expand default_name t0))) =
  Some [("members", VList [VStr "s"; VStr "h-01"; VStr "h-02"])].
Proof. vm_compute. reflexivity. Qed.

Example t0_links : option_map (map (ends ["s"; "h-01"; "h-02"])) (t_links (fst (topology_expand default_name t0))) =
  Some [["s"]; ["s"; "h-01"]; ["s"; "h-02"]; ["s"; "h-01"]; ["s"; "h-02"]].
Proof. vm_compute. reflexivity. Qed.

Example vlan_link_case : t_vlans (fst (topology_expand default_name
    (mk_topo [("h", host 2); ("s", sw)] None [] [("red", [VStr "s-h"; VStr "s-s"])] []))) =
  [("red", VStr "s-s" :: map (fun n => VDict [("interfaces", VList [VDict [("node", VStr "s")]; VDict [("node", VStr n)]]); ("_linkname", VStr "vlans.red.links[1]")]) ["h-01"; "h-02"])].
Proof. vm_compute. reflexivity. Qed.

Example host_cloneable : cloneable (host 2) 1 2 1.
Proof.
  exists [("count", VInt 2)]. split; [reflexivity|]. split.
  - apply wf_VDict. split; [constructor; [intros []|constructor]|]. intros k v [E|[]]. injection E as E1 E2. subst. exact I.
  - split; [reflexivity|]. split; [lia|]. split; [right; split; reflexivity|]. split; [lia|].
    split; [right; split; reflexivity|]. split; [lia|]. split; [|reflexivity].
    intros k v D. cbn [dget] in D. destruct (String.eqb k "count"); [|discriminate D]. injection D as D. subst v.
    exists 2%Z. split; [reflexivity|lia].
Qed.

(* ---------- what does not hold ---------- *)

(* The default name pattern keeps 13 characters of the name: nodes that start with the same 13
   characters share their clones. Here two nodes with two clones each end up as two nodes, and the
   clones have the device of the first one. *)
Theorem clone_names_collide_refuted :
  ~ (forall t, snd (topology_expand default_name t) = [] ->
       forall n d start count step m e start' count' step', n <> m ->
       dget n (t_nodes t) = Some d -> cloneable d start count step ->
       dget m (t_nodes t) = Some e -> cloneable e start' count' step' ->
       (forall x, In x (clone_names default_name n start count step) -> ~ In x (clone_names default_name m start' count' step')) /\
       length (t_nodes (fst (topology_expand default_name t))) >= Z.to_nat count + Z.to_nat count').
Proof.
  intros H.
  set (a := [("name", VStr "datacenter-leaf-a"); ("device", VStr "eos"); ("clone", VDict [("count", VInt 2)])]).
  set (b := [("name", VStr "datacenter-leaf-b"); ("device", VStr "frr"); ("clone", VDict [("count", VInt 2)])]).
  set (t := mk_topo [("datacenter-leaf-a", a); ("datacenter-leaf-b", b)] None [] [] []).
  assert (CA : forall x, dget "clone" x = Some (VDict [("count", VInt 2)]) -> dget "include" x = None -> cloneable x 1 2 1).
  { intros x X N. exists [("count", VInt 2)]. split; [exact X|]. split.
    - apply wf_VDict. split; [constructor; [intros []|constructor]|]. intros k v [E|[]]. injection E as E1 E2. subst. exact I.
    - split; [reflexivity|]. split; [lia|]. split; [right; split; reflexivity|]. split; [lia|].
      split; [right; split; reflexivity|]. split; [lia|]. split; [|exact N].
      intros k v D. cbn [dget] in D. destruct (String.eqb k "count"); [|discriminate D]. injection D as D. subst v.
      exists 2%Z. split; [reflexivity|lia]. }
  assert (E : snd (topology_expand default_name t) = []) by (vm_compute; reflexivity).
  destruct (H t E "datacenter-leaf-a" a 1%Z 2%Z 1%Z "datacenter-leaf-b" b 1%Z 2%Z 1%Z) as [_ L];
    [discriminate|reflexivity|apply CA; reflexivity|reflexivity|apply CA; reflexivity|].
  assert (Q : length (t_nodes (fst (topology_expand default_name t))) = 2) by (vm_compute; reflexivity).
  rewrite Q in L. change (Z.to_nat 2) with 2 in L. lia.
Qed.

(* With a name pattern that yields the name of the node itself the node disappears. *)
Theorem clone_own_name_refuted :
  ~ (forall (name_of : string -> Z -> string) t n d start count step,
       dget n (t_nodes t) = Some d -> cloneable d start count step -> NoDup (clone_names name_of n start count step) ->
       snd (topology_expand name_of t) = [] ->
       forall x, In x (clone_names name_of n start count step) -> In x (dkeys (t_nodes (fst (topology_expand name_of t))))).
Proof.
  intros H.
  set (t := mk_topo [("h", host 1)] None [] [] []).
  assert (C : cloneable (host 1) 1 1 1).
  { exists [("count", VInt 1)]. split; [reflexivity|]. split.
    - apply wf_VDict. split; [constructor; [intros []|constructor]|]. intros k v [E|[]]. injection E as E1 E2. subst. exact I.
    - split; [reflexivity|]. split; [lia|]. split; [right; split; reflexivity|]. split; [lia|].
      split; [right; split; reflexivity|]. split; [lia|]. split; [|reflexivity].
      intros k v D. cbn [dget] in D. destruct (String.eqb k "count"); [|discriminate D]. injection D as D. subst v.
      exists 1%Z. split; [reflexivity|lia]. }
  assert (ND : NoDup (clone_names (fun n _ => n) "h" 1 1 1)) by (constructor; [intros []|constructor]).
  assert (E : snd (topology_expand (fun n _ => n) t) = []) by (vm_compute; reflexivity).
  pose proof (H (fun n _ => n) t "h" (host 1) 1%Z 1%Z 1%Z eq_refl C ND E "h" (or_introl eq_refl)) as Q.
  vm_compute in Q. exact Q.
Qed.

(* An M-LAG pair: cloning one of the switches drops the member links of the other one. *)
Theorem clone_lag_member_lost_refuted :
  ~ (forall nodes name clones l, clones <> [] ->
       forall m, In m (lag_members l) -> ~ In name (ends nodes m) ->
       existsb (fun x => memS name (ends nodes x)) (lag_members l) = true ->
       forall d', In d' (fst (clone_lag nodes name clones 0 l)) ->
       exists m', In m' (lag_members d') /\ ends nodes m' = ends nodes m).
Proof.
  intros H.
  set (l := [("lag", VDict [("members", VList [VStr "h-a"; VStr "h-b"])])]).
  set (nodes := ["h"; "a"; "b"; "a1"; "a2"]).
  destruct (H nodes "a" ["a1"; "a2"] l) with (m := VStr "h-b") (d' := nth 0 (fst (clone_lag nodes "a" ["a1"; "a2"] 0 l)) [])
    as [m' [I E]].
  - discriminate.
  - right; left; reflexivity.
  - vm_compute. intros [Q|[Q|[]]]; discriminate Q.
  - vm_compute. reflexivity.
  - vm_compute. left; reflexivity.
  - vm_compute in I. destruct I as [I|[]]. subst m'. vm_compute in E. discriminate E.
Qed.

(* The interface index of a clone is the same on every copy of a link but not on every copy of a
   LAG member. *)
Theorem clone_lag_port_refuted :
  ~ (forall nodes name clones l c clone d' m', nth_error clones c = Some clone ->
       nth_error (fst (clone_lag nodes name clones 0 l)) c = Some d' -> In (VDict m') (lag_members d') ->
       forall i, In i (link_intfs m') -> intf_node i = clone ->
       exists m dm j, In m (lag_members l) /\ fst (adjust_link_object m "" nodes) = Some dm /\ In j (link_intfs dm) /\
         intf_node j = name /\ dget "ifindex" i = dget "ifindex" j).
Proof.
  intros H.
  set (l := [("lag", VDict [("members", VList [VDict [("s", VNull); ("h", VDict [("ifindex", VInt 1)])]])])]).
  set (nodes := ["h"; "s"; "h1"; "h2"]).
  destruct (H nodes "h" ["h1"; "h2"] l 1 "h2" (nth 1 (fst (clone_lag nodes "h" ["h1"; "h2"] 0 l)) [])
    (as_dict (nth 0 (lag_members (nth 1 (fst (clone_lag nodes "h" ["h1"; "h2"] 0 l)) [])) VNull)) eq_refl)
    with (i := [("ifindex", VInt 2); ("node", VStr "h2")]) as [m [dm [j [I [A [J [N E]]]]]]].
  - vm_compute. reflexivity.
  - vm_compute. left; reflexivity.
  - vm_compute. right; left; reflexivity.
  - reflexivity.
  - vm_compute in I. destruct I as [I|[]]. subst m. vm_compute in A. injection A as A. subst dm.
    vm_compute in J. destruct J as [J|[J|[]]]; subst j; vm_compute in E; discriminate E.
Qed.

(* cases for the theorems about links *)
Example mesh_case : map (ends ["a1"; "a2"; "b1"; "b2"])
  (fst (process_links "" ["a1"; "a2"; "b"; "b1"; "b2"] "b" ["b1"; "b2"]
     (fst (process_links "" ["a"; "a1"; "a2"; "b"] "a" ["a1"; "a2"] [VStr "a-b"])))) =
  [["a1"; "b1"]; ["a1"; "b2"]; ["a2"; "b1"]; ["a2"; "b2"]].
Proof. vm_compute. reflexivity. Qed.

Example lag_case : map (ends ["s"; "h-01"; "h-02"])
  (flat_map lag_members (fst (clone_lag ["s"; "h"; "h-01"; "h-02"] "h" ["h-01"; "h-02"] 0
     [("lag", VDict [("ifindex", VInt 8); ("members", VList [VStr "s-h"; VStr "s-h"])])]))) =
  [["s"; "h-01"]; ["s"; "h-01"]; ["s"; "h-02"]; ["s"; "h-02"]].
Proof. vm_compute. reflexivity. Qed.

Print Assumptions clone_link_exact.
Print Assumptions clone_links_exact.
Print Assumptions cloned_node_gone.
Print Assumptions clone_links_count.
Print Assumptions clone_full_mesh.
Print Assumptions clone_node_exact.
Print Assumptions clone_override.
Print Assumptions clone_rejected.
Print Assumptions clone_groups.
Print Assumptions clone_node_links.
Print Assumptions expanded_nodes.
Print Assumptions default_names_distinct.
Print Assumptions default_names_nodup.
Print Assumptions clone_ids_distinct.
Print Assumptions clone_names_collide_refuted.
Print Assumptions clone_own_name_refuted.
Print Assumptions clone_lag_member_lost_refuted.
Print Assumptions clone_lag_port_refuted.
