(* Property C154: files included into YAML files. *)
From Coq Require Import String Ascii ZArith Lia Bool List.
From Verif Require Import Base Box_Model Box_Props Text_Model Sort_Model Defs_Model.
Import ListNotations.
Local Open Scope string_scope.
Local Open Scope list_scope.

(* ------------------------------------------------------------------ *)
(* Specification                                                        *)

(* no request to include a file is left anywhere in the data *)
Definition no_include (v : val) : Prop := forall p, lookup (p ++ ["_include"]) v = None.

(* ------------------------------------------------------------------ *)

Lemma lookup_wf : forall p t y, wf t -> lookup p t = Some y -> wf y.
Proof.
  induction p as [|h q IQ]; intros t0 y W0 L0; cbn [lookup] in L0; [injection L0 as L0; subst; exact W0|].
  destruct t0 as [| | | | |d0]; try discriminate L0. destruct (dget h d0) as [z|] eqn:Z; [|discriminate L0].
  exact (IQ _ _ (wf_dget _ _ _ W0 Z) L0).
Qed.

Lemma lookup_merge : forall b a p, wf b -> lookup p (merge a b) <> None -> lookup p a <> None \/ lookup p b <> None.
Proof.
  induction b as [b Hb|db IH] using val_ind2; intros a p W L.
  - rewrite merge_scalar_r in L by exact Hb. right; exact L.
  - destruct (is_dict a) eqn:DA; [|rewrite merge_scalar_l in L by exact DA; right; exact L].
    destruct a as [| | | | |da]; try discriminate DA. rewrite merge_dicts in L.
    destruct p as [|k p]; [left; discriminate|]. cbn [lookup] in L |- *.
    rewrite dget_mdict in L by (apply wf_VDict in W; exact (proj1 W)).
    destruct (dget k da) as [x|] eqn:A; destruct (dget k db) as [y|] eqn:B; cbn [mopt] in L.
    + exact (IH _ _ (dget_In _ _ B) _ _ (wf_dget _ _ _ W B) L).
    + left; exact L.
    + right; exact L.
    + exfalso; apply L; reflexivity.
Qed.

Lemma no_include_merge : forall a b, wf b -> no_include a -> no_include b -> no_include (merge a b).
Proof.
  intros a b W A B p. destruct (lookup (p ++ ["_include"]) (merge a b)) as [x|] eqn:L; [|reflexivity].
  exfalso. destruct (lookup_merge b a (p ++ ["_include"]) W) as [Q|Q]; [rewrite L; discriminate|exact (Q (A p))|exact (Q (B p))].
Qed.

Lemma no_include_scalar : forall v, is_dict v = false -> no_include v.
Proof. intros v H p. destruct v; try discriminate H; destruct p; reflexivity. Qed.

Lemma no_include_dict : forall d, no_include (VDict d) <->
  dget "_include" d = None /\ forall k v, dget k d = Some v -> no_include v.
Proof.
  intros d. split.
  - intros H. split.
    + pose proof (H []) as Q. cbn [app lookup] in Q. destruct (dget "_include" d); [discriminate Q|reflexivity].
    + intros k v D p. pose proof (H (k :: p)) as Q. cbn [app lookup] in Q. rewrite D in Q. exact Q.
  - intros [H1 H2] p. destruct p as [|k p]; cbn [app lookup].
    + rewrite H1. reflexivity.
    + destruct (dget k d) as [v|] eqn:D; [exact (H2 k v D p)|reflexivity].
Qed.

Section Inc.
Variable stem : string -> string.
Variable glob : string -> list string.
Variable rd : string -> option (dict val).

(* include_yaml in all values of a dictionary *)
Fixpoint incl_dict (d : list (string * val)) : result ierr (dict val) :=
  match d with
  | [] => Ok []
  | (k, x) :: r =>
      match include_yaml stem glob rd x with
      | Err e => Err e
      | Ok x' => match incl_dict r with Ok r' => Ok ((k, x') :: r') | Err e => Err e end
      end
  end.

Lemma include_unfold : forall d, include_yaml stem glob rd (VDict d) =
  match incl_dict d with
  | Err e => Err e
  | Ok d1 => match dget "_include" d1 with
             | None => Ok (VDict d1)
             | Some i => match include_items stem glob rd (include_list i) d1 with
                         | Ok d2 => Ok (VDict (dpop "_include" d2))
                         | Err e => Err e
                         end
             end
  end.
Proof. reflexivity. Qed.

Lemma incl_keys : forall d d1, incl_dict d = Ok d1 -> dkeys d1 = dkeys d.
Proof.
  induction d as [|[k x] r IH]; intros d1 H; cbn [incl_dict] in H; [injection H as H; subst; reflexivity|].
  destruct (include_yaml stem glob rd x) as [x'|e]; [|discriminate H].
  destruct (incl_dict r) as [r'|e] eqn:R; [|discriminate H]. injection H as H. subst d1. cbn [dkeys map fst].
  f_equal. exact (IH r' eq_refl).
Qed.

Lemma incl_get : forall d d1 k, incl_dict d = Ok d1 ->
  match dget k d with
  | Some x => exists x', include_yaml stem glob rd x = Ok x' /\ dget k d1 = Some x'
  | None => dget k d1 = None
  end.
Proof.
  induction d as [|[k0 x] r IH]; intros d1 k H; cbn [incl_dict] in H; [injection H as H; subst; reflexivity|].
  destruct (include_yaml stem glob rd x) as [x'|e] eqn:I; [|discriminate H].
  destruct (incl_dict r) as [r'|e] eqn:R; [|discriminate H]. injection H as H. subst d1. cbn [dget].
  destruct (String.eqb k k0); [exists x'; split; [exact I|reflexivity]|]. exact (IH r' k eq_refl).
Qed.

Lemma include_scalar : forall v, is_dict v = false -> include_yaml stem glob rd v = Ok v.
Proof. intros v H. destruct v; try reflexivity. discriminate H. Qed.

(* what happens to the value of one key when a file is inserted *)
Definition step_key (k : string) (cur : option val) (fy : string * dict val) : option val :=
  let (f, y) := fy in
  if String.eqb k (stem f) then Some (VDict (dpop "_top" y))
  else match dget "_top" y with
       | Some (VDict t) =>
           match dget k t, cur with
           | None, _ => cur
           | Some v, None => Some v
           | Some (VDict v), Some (VDict c) => Some (merge (VDict c) (VDict v))
           | Some _, Some _ => cur
           end
       | _ => cur
       end.

Lemma add_top_get : forall t d k, NoDup (dkeys t) ->
  dget k (fold_left add_top t d) =
  match dget k t, dget k d with
  | None, c => c
  | Some v, None => Some v
  | Some (VDict v), Some (VDict c) => Some (merge (VDict c) (VDict v))
  | Some _, Some c => Some c
  end.
Proof.
  induction t as [|[k0 v0] r IH]; intros d k N; cbn [fold_left dget]; [reflexivity|].
  inversion N as [|? ? N1 N2]; subst. rewrite IH by exact N2.
  destruct (String.eqb_spec k k0) as [E|E].
  - subst k0. assert (NR : dget k r = None) by (apply dget_None; exact N1). rewrite NR. unfold add_top. cbn [fst snd].
    destruct (dget k d) as [c|] eqn:D.
    + destruct (is_dict v0 && is_dict c)%bool eqn:B.
      * apply andb_prop in B. destruct B as [B1 B2]. rewrite dget_dset_same.
        destruct v0; try discriminate B1. destruct c; try discriminate B2. reflexivity.
      * rewrite D. destruct v0; try reflexivity. destruct c; try reflexivity. discriminate B.
    + rewrite dget_dset_same. destruct v0; reflexivity.
  - assert (G : dget k (add_top d (k0, v0)) = dget k d).
    { unfold add_top. cbn [fst snd]. destruct (dget k0 d) as [c|]; [|apply dget_dset_other; exact E].
      destruct (is_dict v0 && is_dict c)%bool; [apply dget_dset_other; exact E|reflexivity]. }
    rewrite G. reflexivity.
Qed.

Lemma insert_get : forall d f y k, wf (VDict y) -> dget k (insert_file stem d f y) = step_key k (dget k d) (f, y).
Proof.
  intros d f y k W. unfold insert_file, step_key. destruct (String.eqb_spec k (stem f)) as [E|E].
  - subst k. apply dget_dset_same.
  - rewrite dget_dset_other by exact E. destruct (dget "_top" y) as [t|] eqn:T; [|reflexivity].
    destruct t as [| | | | |t]; try reflexivity.
    assert (NT : NoDup (dkeys t)) by (pose proof (wf_dget _ _ _ W T) as WT; apply wf_VDict in WT; exact (proj1 WT)).
    rewrite add_top_get by exact NT. destruct (dget k t) as [v|]; [|reflexivity].
    destruct v; destruct (dget k d) as [c|]; try reflexivity.
Qed.

(* the files with their contents, or None when one of them cannot be read *)
Fixpoint read_all (fs : list string) : option (list (string * dict val)) :=
  match fs with
  | [] => Some []
  | f :: r => match rd f, read_all r with Some y, Some l => Some ((f, y) :: l) | _, _ => None end
  end.

Hypothesis RW : forall f y, rd f = Some y -> wf (VDict y).

Lemma files_get : forall fs d d2 k, include_files stem rd fs d = Ok d2 ->
  exists l, read_all fs = Some l /\ dget k d2 = fold_left (step_key k) l (dget k d).
Proof.
  induction fs as [|f r IH]; intros d d2 k H; cbn [include_files read_all] in H |- *.
  - injection H as H. subst. exists []. split; reflexivity.
  - destruct (rd f) as [y|] eqn:R; [|discriminate H]. destruct (IH _ _ k H) as [l [E G]].
    rewrite E. exists ((f, y) :: l). split; [reflexivity|]. cbn [fold_left]. rewrite G, insert_get by exact (RW _ _ R). reflexivity.
Qed.

Lemma read_all_app : forall a b x y, read_all a = Some x -> read_all b = Some y -> read_all (a ++ b) = Some (x ++ y).
Proof.
  induction a as [|f r IH]; intros b x y A B; cbn [app read_all] in A |- *; [injection A as A; subst; exact B|].
  destruct (rd f) as [z|]; [|discriminate A]. destruct (read_all r) as [w|] eqn:Q; [|discriminate A].
  injection A as A. subst x. rewrite (IH b w y eq_refl B). reflexivity.
Qed.

Lemma items_get : forall l d d2 k, include_items stem glob rd l d = Ok d2 ->
  exists fy, read_all (flat_map glob l) = Some fy /\ dget k d2 = fold_left (step_key k) fy (dget k d).
Proof.
  induction l as [|i r IH]; intros d d2 k H; cbn [include_items flat_map] in H |- *.
  - injection H as H. subst. exists []. split; reflexivity.
  - destruct (glob i) as [|f fs] eqn:G; [discriminate H|].
    destruct (include_files stem rd (f :: fs) d) as [d1|e] eqn:F; [|discriminate H].
    destruct (files_get _ _ _ k F) as [l1 [E1 G1]]. destruct (IH _ _ k H) as [l2 [E2 G2]].
    exists (l1 ++ l2). split; [exact (read_all_app _ _ _ _ E1 E2)|]. rewrite fold_left_app, <- G1. exact G2.
Qed.

(* The value of every key of a dictionary after files were included into it. *)
Theorem include_value : forall d l d', dget "_include" d = Some (VList (map VStr l)) ->
  include_yaml stem glob rd (VDict d) = Ok d' ->
  exists r d1 fy, d' = VDict r /\ incl_dict d = Ok d1 /\ read_all (flat_map glob l) = Some fy /\
    dget "_include" r = None /\
    forall k, k <> "_include" -> dget k r = fold_left (step_key k) fy (dget k d1).
Proof.
  intros d l d' D H. rewrite include_unfold in H. destruct (incl_dict d) as [d1|e] eqn:I; [|discriminate H].
  pose proof (incl_get d d1 "_include" I) as G. rewrite D in G. destruct G as [x' [G1 G2]].
  rewrite include_scalar in G1 by reflexivity. injection G1 as G1. subst x'. rewrite G2 in H. cbn [include_list] in H.
  assert (ST : strings (map VStr l) = l).
  { clear. unfold strings. induction l as [|x r IH]; [reflexivity|]. cbn [map flat_map app]. rewrite IH. reflexivity. }
  rewrite ST in H. destruct (include_items stem glob rd l d1) as [d2|e] eqn:E; [|discriminate H].
  injection H as H. destruct (items_get _ _ _ "" E) as [fy [FY _]].
  exists (dpop "_include" d2), d1, fy. split; [symmetry; exact H|]. split; [reflexivity|]. split; [exact FY|].
  split; [apply dget_dpop_same|]. intros k N. rewrite dget_dpop_other by exact N.
  destruct (items_get _ _ _ k E) as [fy2 [FY2 G]]. rewrite FY in FY2. injection FY2 as FY2. subst fy2. exact G.
Qed.

(* A file is found under its name unless a later file has the same name or changes it. *)
Theorem included_file_value : forall k fy1 f y fy2 cur, stem f = k ->
  (forall g z, In (g, z) fy2 -> stem g <> k /\ forall t, dget "_top" z = Some (VDict t) -> dget k t = None) ->
  fold_left (step_key k) (fy1 ++ (f, y) :: fy2) cur = Some (VDict (dpop "_top" y)).
Proof.
  intros k fy1 f y fy2 cur E A. rewrite fold_left_app. cbn [fold_left].
  assert (S1 : forall c, step_key k c (f, y) = Some (VDict (dpop "_top" y))).
  { intros c. unfold step_key. rewrite <- E, String.eqb_refl. reflexivity. }
  rewrite S1. clear S1. induction fy2 as [|[g z] r IH]; [reflexivity|]. cbn [fold_left].
  destruct (A g z (or_introl eq_refl)) as [NS NT].
  assert (S2 : step_key k (Some (VDict (dpop "_top" y))) (g, z) = Some (VDict (dpop "_top" y))).
  { unfold step_key. destruct (String.eqb_spec k (stem g)) as [Q|Q]; [exfalso; apply NS; symmetry; exact Q|].
    destruct (dget "_top" z) as [t|] eqn:T; [|reflexivity]. destruct t as [| | | | |t]; try reflexivity.
    rewrite (NT t eq_refl). reflexivity. }
  rewrite S2. apply IH. intros g' z' I. apply A. right; exact I.
Qed.

(* A value that is not a dictionary stays, unless a file has the name of its key. *)
Theorem own_value_kept : forall k fy v, is_dict v = false -> (forall g z, In (g, z) fy -> stem g <> k) ->
  fold_left (step_key k) fy (Some v) = Some v.
Proof.
  intros k fy v D. induction fy as [|[g z] r IH]; intros A; [reflexivity|]. cbn [fold_left].
  assert (S : step_key k (Some v) (g, z) = Some v).
  { unfold step_key. destruct (String.eqb_spec k (stem g)) as [Q|Q]; [exfalso; apply (A g z (or_introl eq_refl)); symmetry; exact Q|].
    destruct (dget "_top" z) as [t|]; [|reflexivity]. destruct t as [| | | | |t]; try reflexivity.
    destruct (dget k t) as [x|]; [|reflexivity]. destruct x; try reflexivity. destruct v; try reflexivity. discriminate D. }
  rewrite S. apply IH. intros g' z' I. apply (A g' z'). right; exact I.
Qed.

(* Values in _top of one file are merged into the dictionary, the included values win. *)
Theorem top_values_merged : forall k f y t c v, stem f <> k -> dget "_top" y = Some (VDict t) ->
  dget k t = Some (VDict v) -> wf (VDict v) -> forall p x,
  exists m, step_key k (Some (VDict c)) (f, y) = Some m /\
    (leaf p m x <-> leaf p (VDict v) x \/ (leaf p (VDict c) x /\ ~ overridden p (VDict v))).
Proof.
  intros k f y t c v NS T K W p x. exists (merge (VDict c) (VDict v)). split.
  - unfold step_key. destruct (String.eqb_spec k (stem f)) as [Q|Q]; [exfalso; apply NS; symmetry; exact Q|]. rewrite T, K. reflexivity.
  - apply merge_leaves. exact W.
Qed.

Lemma files_ok : forall fs d, (exists d2, include_files stem rd fs d = Ok d2) <-> forall f, In f fs -> rd f <> None.
Proof.
  induction fs as [|f r IH]; intros d; cbn [include_files].
  - split; [intros _ f []|intros _; exists d; reflexivity].
  - destruct (rd f) as [y|] eqn:R.
    + rewrite IH. split; [intros A g [Q|Q]; [subst g; rewrite R; discriminate|exact (A g Q)]|intros A g Q; apply A; right; exact Q].
    + split; [intros [d2 Q]; discriminate Q|]. intros A. exfalso. exact (A f (or_introl eq_refl) R).
Qed.

Lemma items_ok : forall l d, (exists d2, include_items stem glob rd l d = Ok d2) <->
  forall i, In i l -> glob i <> [] /\ forall f, In f (glob i) -> rd f <> None.
Proof.
  induction l as [|i r IH]; intros d; cbn [include_items].
  - split; [intros _ i []|intros _; exists d; reflexivity].
  - destruct (glob i) as [|f fs] eqn:G.
    + split; [intros [d2 Q]; discriminate Q|]. intros A. exfalso. destruct (A i (or_introl eq_refl)) as [Q _]. exact (Q G).
    + pose proof (files_ok (f :: fs) d) as FO. destruct (include_files stem rd (f :: fs) d) as [d1|e] eqn:F.
      * rewrite IH. split.
        { intros A j [Q|Q]; [|exact (A j Q)]. subst j. rewrite G. split; [discriminate|]. apply FO. exists d1; reflexivity. }
        { intros A j Q. apply A. right; exact Q. }
      * split; [intros [d2 Q]; discriminate Q|]. intros A. exfalso. destruct (A i (or_introl eq_refl)) as [_ B].
        rewrite G in B. destruct (proj2 FO B) as [d2 Q]. discriminate Q.
Qed.

(* Reading succeeds exactly when every item to include, wherever it is, matches some files and all of them can be read. *)
Theorem include_ok_iff : forall v, wf v ->
  (exists v', include_yaml stem glob rd v = Ok v') <->
  forall p l i, lookup (p ++ ["_include"]) v = Some (VList l) -> In (VStr i) l ->
    glob i <> [] /\ forall f, In f (glob i) -> rd f <> None.
Proof.
  assert (STI : forall l i, In i (strings l) <-> In (VStr i) l).
  { clear. intros l i. unfold strings. rewrite in_flat_map. split.
    - intros [x [I S]]. destruct x; try (destruct S). + subst. exact I. + contradiction.
    - intros I. exists (VStr i). split; [exact I|left; reflexivity]. }
  induction v as [v Hv|d IH] using val_ind2; intros W.
  - rewrite include_scalar by exact Hv. split; [|intros _; exists v; reflexivity].
    intros _ p l i L. pose proof (no_include_scalar v Hv p) as Q. rewrite Q in L. discriminate L.
  - rewrite include_unfold.
    assert (WD : forall k x, In (k, x) d -> wf x) by (apply wf_VDict in W; exact (proj2 W)).
    assert (ND : NoDup (dkeys d)) by (apply wf_VDict in W; exact (proj1 W)).
    assert (INC : (exists d1, incl_dict d = Ok d1) <-> forall k x, In (k, x) d -> exists x', include_yaml stem glob rd x = Ok x').
    { clear. induction d as [|[k x] r IR]; cbn [incl_dict]; [split; [intros _ k x []|intros _; exists []; reflexivity]|].
      destruct (include_yaml stem glob rd x) as [x'|e] eqn:X.
      - destruct (incl_dict r) as [r'|e] eqn:R.
        + split; [|intros _; eexists; reflexivity]. intros _ k2 x2 [Q|Q]; [injection Q as Q1 Q2; subst; exists x'; exact X|].
          apply (proj1 IR (ex_intro _ r' eq_refl) k2 x2 Q).
        + split; [intros [y Q]; discriminate Q|]. intros A. exfalso.
          destruct (proj2 IR) as [y Q]; [intros k2 x2 Q; apply (A k2 x2); right; exact Q|discriminate Q].
      - split; [intros [y Q]; discriminate Q|]. intros A. exfalso. destruct (A k x (or_introl eq_refl)) as [y Q]. rewrite X in Q. discriminate Q. }
    assert (SUB : (forall k x, In (k, x) d -> exists x', include_yaml stem glob rd x = Ok x') <->
      forall k q l i, lookup ((k :: q) ++ ["_include"]) (VDict d) = Some (VList l) -> In (VStr i) l ->
        glob i <> [] /\ forall f, In f (glob i) -> rd f <> None).
    { split.
      - intros A k q l i L I. cbn [app lookup] in L. destruct (dget k d) as [x|] eqn:D; [|discriminate L]. apply dget_In in D.
        exact (proj1 (IH k x D (WD k x D)) (A k x D) q l i L I).
      - intros A k x I. apply (IH k x I (WD k x I)). intros q l i L II. apply (A k q l i); [|exact II].
        cbn [app lookup]. rewrite (dget_NoDup _ _ _ ND I). exact L. }
    destruct (incl_dict d) as [d1|e] eqn:ID.
    2:{ split; [intros [v' Q]; discriminate Q|]. intros A. exfalso. destruct (proj2 INC) as [d1 Q]; [|discriminate Q].
        apply SUB. intros k q l i. apply (A (k :: q)). }
    pose proof (proj1 SUB (proj1 INC (ex_intro _ d1 eq_refl))) as SUBOK.
    pose proof (incl_get d d1 "_include" ID) as G.
    destruct (dget "_include" d) as [iv|] eqn:DI.
    2:{ rewrite G. split; [|intros _; eexists; reflexivity]. intros _ p l i L I. destruct p as [|k q].
        - cbn [app lookup] in L. rewrite DI in L. discriminate L.
        - exact (SUBOK k q l i L I). }
    destruct G as [x' [G1 G2]]. rewrite G2.
    assert (TOP : (exists d2, include_items stem glob rd (include_list x') d1 = Ok d2) <->
      forall l i, lookup ["_include"] (VDict d) = Some (VList l) -> In (VStr i) l -> glob i <> [] /\ forall f, In f (glob i) -> rd f <> None).
    { rewrite items_ok. cbn [lookup]. rewrite DI. split.
      - intros A l i Q I. injection Q as Q. subst iv. rewrite include_scalar in G1 by reflexivity. injection G1 as G1. subst x'.
        apply A. apply STI. exact I.
      - intros A i I. destruct (is_dict iv) eqn:DV.
        + exfalso. destruct iv as [| | | | |dd]; try discriminate DV. rewrite include_unfold in G1.
          destruct (incl_dict dd) as [e1|e]; [|discriminate G1]. destruct (dget "_include" e1) as [j|].
          * destruct (include_items stem glob rd (include_list j) e1) as [e2|e]; [|discriminate G1].
            injection G1 as G1. subst x'. exact I.
          * injection G1 as G1. subst x'. exact I.
        + rewrite include_scalar in G1 by exact DV. injection G1 as G1. subst x'. destruct iv as [| | | |l0|]; try (exfalso; exact I).
          apply (A l0 i eq_refl). apply STI. exact I. }
    split.
    + intros [v' H] p l i L I. destruct p as [|k q]; [|exact (SUBOK k q l i L I)].
      apply (proj1 TOP) with (l := l); [|exact L|exact I].
      destruct (include_items stem glob rd (include_list x') d1) as [d2|e]; [exists d2; reflexivity|discriminate H].
    + intros A. destruct (proj2 TOP) as [d2 E]; [intros l i L I; exact (A [] l i L I)|]. rewrite E. eexists; reflexivity.
Qed.


Hypothesis RN : forall f y, rd f = Some y -> no_include (VDict y).

Lemma step_clean : forall k cur f y, wf (VDict y) -> no_include (VDict y) ->
  (forall c, cur = Some c -> no_include c) -> forall c, step_key k cur (f, y) = Some c -> no_include c.
Proof.
  intros k cur f y W N A c H. unfold step_key in H. apply no_include_dict in N. destruct N as [N1 N2].
  destruct (String.eqb k (stem f)).
  - injection H as H. subst c. apply no_include_dict. split.
    + rewrite dget_dpop_other by discriminate. exact N1.
    + intros k2 v2 D. destruct (String.eqb_spec k2 "_top") as [Q|Q]; [subst; rewrite dget_dpop_same in D; discriminate D|].
      rewrite dget_dpop_other in D by exact Q. exact (N2 k2 v2 D).
  - destruct (dget "_top" y) as [t|] eqn:T; [|exact (A c H)]. destruct t as [| | | | |t]; try exact (A c H).
    pose proof (N2 _ _ T) as NT. apply no_include_dict in NT. destruct NT as [_ NT].
    destruct (dget k t) as [v|] eqn:K; [|destruct cur; exact (A c H)].
    pose proof (NT _ _ K) as NV. destruct v as [| | | | |vd];
      try (destruct cur as [c0|]; [exact (A c H)|injection H as H; subst c; exact NV]).
    destruct cur as [c0|]; [|injection H as H; subst c; exact NV]. destruct c0 as [| | | | |cd]; try exact (A c H).
    injection H as H. subst c. rewrite <- merge_dicts. apply no_include_merge; [|exact (A _ eq_refl)|exact NV].
    exact (wf_dget _ _ _ (wf_dget _ _ _ W T) K).
Qed.

Lemma fold_clean : forall k fy cur, (forall f y, In (f, y) fy -> rd f = Some y) ->
  (forall c, cur = Some c -> no_include c) -> forall c, fold_left (step_key k) fy cur = Some c -> no_include c.
Proof.
  intros k. induction fy as [|[f y] r IH]; intros cur R A c H; cbn [fold_left] in H; [exact (A c H)|].
  apply (IH (step_key k cur (f, y))); [intros g z I; apply R; right; exact I| |exact H].
  pose proof (R f y (or_introl eq_refl)) as RF. apply step_clean; [exact (RW _ _ RF)|exact (RN _ _ RF)|exact A].
Qed.

Lemma read_all_In : forall fs l, read_all fs = Some l -> forall f y, In (f, y) l -> rd f = Some y.
Proof.
  induction fs as [|g r IH]; intros l H f y I; cbn [read_all] in H; [injection H as H; subst; destruct I|].
  destruct (rd g) as [z|] eqn:R; [|discriminate H]. destruct (read_all r) as [w|]; [|discriminate H].
  injection H as H. subst l. destruct I as [I|I]; [injection I as I1 I2; subst; exact R|exact (IH w eq_refl f y I)].
Qed.

(* When reading succeeds no request is left. *)
Theorem include_removed : forall v v', include_yaml stem glob rd v = Ok v' -> no_include v'.
Proof.
  induction v as [v Hv|d IH] using val_ind2; intros v' H.
  - rewrite include_scalar in H by exact Hv. injection H as H. subst. apply no_include_scalar; exact Hv.
  - rewrite include_unfold in H. destruct (incl_dict d) as [d1|e] eqn:ID; [|discriminate H].
    assert (C1 : forall k x, dget k d1 = Some x -> no_include x).
    { intros k x D. pose proof (incl_get d d1 k ID) as G. destruct (dget k d) as [y|] eqn:Y.
      - destruct G as [x' [G1 G2]]. rewrite G2 in D. injection D as D. subst x'. exact (IH k y (dget_In _ _ Y) x G1).
      - rewrite G in D. discriminate D. }
    destruct (dget "_include" d1) as [i|] eqn:DI.
    + destruct (include_items stem glob rd (include_list i) d1) as [d2|e] eqn:E; [|discriminate H].
      injection H as H. subst v'. apply no_include_dict. split; [apply dget_dpop_same|].
      intros k v D. destruct (String.eqb_spec k "_include") as [Q|Q]; [subst; rewrite dget_dpop_same in D; discriminate D|].
      rewrite dget_dpop_other in D by exact Q. destruct (items_get _ _ _ k E) as [fy [FY G]]. rewrite G in D.
      apply (fold_clean k fy (dget k d1)); [exact (read_all_In _ _ FY)|intros c; apply C1|exact D].
    + injection H as H. subst v'. apply no_include_dict. split; [exact DI|exact C1].
Qed.

Lemma wf_dpop : forall k d, wf (VDict d) -> wf (VDict (dpop k d)).
Proof.
  intros k d W. apply wf_VDict in W. destruct W as [N A]. apply wf_VDict. split.
  - clear A. induction d as [|[k0 x] r IH]; [constructor|]. cbn [dpop]. inversion N as [|? ? N1 N2]; subst.
    destruct (String.eqb k k0); [exact (IH N2)|]. cbn [dkeys map fst]. constructor; [|exact (IH N2)].
    intros I. apply N1. apply in_map_iff in I. destruct I as [[k1 x1] [E I]]. cbn [fst] in E. subst k1.
    apply in_map_iff. exists (k0, x1). split; [reflexivity|]. clear -I. induction r as [|[a b] r IR]; [exact I|].
    cbn [dpop] in I. destruct (String.eqb k a); [right; exact (IR I)|]. destruct I as [I|I]; [left; exact I|right; exact (IR I)].
  - intros k1 x1 I. apply (A k1 x1). clear -I. induction d as [|[a b] r IR]; [exact I|].
    cbn [dpop] in I. destruct (String.eqb k a); [right; exact (IR I)|]. destruct I as [I|I]; [left; exact I|right; exact (IR I)].
Qed.

Lemma wf_dset : forall k x d, wf (VDict d) -> wf x -> wf (VDict (dset k x d)).
Proof.
  intros k x d W WX. apply wf_VDict. pose proof W as W2. apply wf_VDict in W2. split; [apply NoDup_dset; exact (proj1 W2)|].
  intros k1 x1 I. apply dget_NoDup in I; [|apply NoDup_dset; exact (proj1 W2)].
  destruct (String.eqb_spec k1 k) as [Q|Q]; [subst; rewrite dget_dset_same in I; injection I as I; subst; exact WX|].
  rewrite dget_dset_other in I by exact Q. exact (wf_dget _ _ _ W I).
Qed.

Lemma wf_insert : forall d f y, wf (VDict d) -> wf (VDict y) -> wf (VDict (insert_file stem d f y)).
Proof.
  intros d f y W WY. unfold insert_file. apply wf_dset; [|apply wf_dpop; exact WY].
  destruct (dget "_top" y) as [t|] eqn:T; [|exact W]. destruct t as [| | | | |t]; try exact W.
  pose proof (wf_dget _ _ _ WY T) as WT. apply wf_VDict in WT. destruct WT as [_ WT]. clear T WY.
  revert d W. induction t as [|[k x] r IH]; intros d W; [exact W|]. cbn [fold_left]. apply IH; [intros k1 x1 I; apply (WT k1 x1); right; exact I|].
  assert (WX : wf x) by (apply (WT k x); left; reflexivity). unfold add_top. cbn [fst snd].
  destruct (dget k d) as [c|] eqn:D; [|apply wf_dset; assumption].
  destruct (is_dict x && is_dict c)%bool; [|exact W]. apply wf_dset; [exact W|]. apply merge_wf; [exact (wf_dget _ _ _ W D)|exact WX].
Qed.

Lemma wf_items : forall l d d2, wf (VDict d) -> include_items stem glob rd l d = Ok d2 -> wf (VDict d2).
Proof.
  assert (WF : forall fs d d2, wf (VDict d) -> include_files stem rd fs d = Ok d2 -> wf (VDict d2)).
  { induction fs as [|f r IH]; intros d d2 W H; cbn [include_files] in H; [injection H as H; subst; exact W|].
    destruct (rd f) as [y|] eqn:R; [|discriminate H]. apply (IH _ _ (wf_insert _ _ _ W (RW _ _ R)) H). }
  induction l as [|i r IH]; intros d d2 W H; cbn [include_items] in H; [injection H as H; subst; exact W|].
  destruct (glob i) as [|f fs]; [discriminate H|].
  destruct (include_files stem rd (f :: fs) d) as [d1|e] eqn:F; [|discriminate H]. exact (IH _ _ (WF _ _ _ W F) H).
Qed.

Lemma include_wf : forall v v', wf v -> include_yaml stem glob rd v = Ok v' -> wf v'.
Proof.
  induction v as [v Hv|d IH] using val_ind2; intros v' W H.
  - rewrite include_scalar in H by exact Hv. injection H as H. subst. exact W.
  - rewrite include_unfold in H. destruct (incl_dict d) as [d1|e] eqn:ID; [|discriminate H].
    assert (N1 : NoDup (dkeys d1)) by (rewrite (incl_keys _ _ ID); apply wf_VDict in W; exact (proj1 W)).
    assert (W1 : wf (VDict d1)).
    { apply wf_VDict. split; [exact N1|]. intros k x I. apply dget_NoDup in I; [|exact N1].
      pose proof (incl_get d d1 k ID) as G. destruct (dget k d) as [y|] eqn:Y; [|rewrite G in I; discriminate I].
      destruct G as [x' [G1 G2]]. rewrite G2 in I. injection I as I. subst x'.
      exact (IH k y (dget_In _ _ Y) x (wf_dget _ _ _ W Y) G1). }
    destruct (dget "_include" d1) as [i|]; [|injection H as H; subst; exact W1].
    destruct (include_items stem glob rd (include_list i) d1) as [d2|e] eqn:E; [|discriminate H].
    injection H as H. subst v'. apply wf_dpop. exact (wf_items _ _ _ W1 E).
Qed.
End Inc.

(* The same for whole files, with the files included into included files. *)
Theorem read_clean : forall stem glob files n f d,
  (forall g y, files g = Some y -> wf (VDict y)) -> read_yaml stem glob files n f = Some d ->
  no_include (VDict d) /\ wf (VDict d).
Proof.
  intros stem glob files. induction n as [|n IH]; intros f d FW H; cbn [read_yaml] in H; [discriminate H|].
  destruct (files f) as [y|] eqn:Y; [|discriminate H].
  destruct (include_yaml stem (glob f) (read_yaml stem glob files n) (VDict y)) as [v|e] eqn:I; [|discriminate H].
  destruct v as [| | | | |d']; try discriminate H. injection H as H. subst d'.
  assert (RW : forall g z, read_yaml stem glob files n g = Some z -> wf (VDict z)) by (intros g z R; exact (proj2 (IH g z FW R))).
  split.
  - apply (include_removed stem (glob f) (read_yaml stem glob files n) RW (fun g z R => proj1 (IH g z FW R)) _ _ I).
  - exact (include_wf stem (glob f) (read_yaml stem glob files n) RW (VDict y) (VDict d) (FW _ _ Y) I).
Qed.

(* Some amount of fuel is enough: more of it does not change the result. *)
Lemma include_mono : forall stem glob rd1 rd2, (forall f y, rd1 f = Some y -> rd2 f = Some y) ->
  forall v v', include_yaml stem glob rd1 v = Ok v' -> include_yaml stem glob rd2 v = Ok v'.
Proof.
  intros stem glob rd1 rd2 M.
  assert (MF : forall fs d d2, include_files stem rd1 fs d = Ok d2 -> include_files stem rd2 fs d = Ok d2).
  { induction fs as [|f r IH]; intros d d2 H; cbn [include_files] in H |- *; [exact H|].
    destruct (rd1 f) as [y|] eqn:R; [|discriminate H]. rewrite (M _ _ R). exact (IH _ _ H). }
  assert (MI : forall l d d2, include_items stem glob rd1 l d = Ok d2 -> include_items stem glob rd2 l d = Ok d2).
  { induction l as [|i r IH]; intros d d2 H; cbn [include_items] in H |- *; [exact H|].
    destruct (glob i) as [|f fs]; [discriminate H|].
    destruct (include_files stem rd1 (f :: fs) d) as [d1|e] eqn:F; [|discriminate H]. rewrite (MF _ _ _ F). exact (IH _ _ H). }
  induction v as [v Hv|d IH] using val_ind2; intros v' H.
  - rewrite include_scalar in H |- * by exact Hv. exact H.
  - rewrite include_unfold in H |- *. destruct (incl_dict stem glob rd1 d) as [d1|e] eqn:I; [|discriminate H].
    assert (I2 : incl_dict stem glob rd2 d = Ok d1).
    { clear H. revert d1 I. induction d as [|[k x] r IR]; intros d1 I; cbn [incl_dict] in I |- *; [exact I|].
      destruct (include_yaml stem glob rd1 x) as [x'|e] eqn:X; [|discriminate I].
      rewrite (IH k x (or_introl eq_refl) x' X).
      destruct (incl_dict stem glob rd1 r) as [r'|e]; [|discriminate I].
      rewrite (IR (fun k0 v0 i => IH k0 v0 (or_intror i)) r' eq_refl). exact I. }
    rewrite I2. destruct (dget "_include" d1) as [i|]; [|exact H].
    destruct (include_items stem glob rd1 (include_list i) d1) as [d2|e] eqn:E; [|discriminate H].
    rewrite (MI _ _ _ E). exact H.
Qed.

Theorem read_fuel_enough : forall stem glob files n m f d, n <= m ->
  read_yaml stem glob files n f = Some d -> read_yaml stem glob files m f = Some d.
Proof.
  intros stem glob files. induction n as [|n IH]; intros m f d L H; [discriminate H|].
  destruct m as [|m]; [lia|]. cbn [read_yaml] in H |- *. destruct (files f) as [y|]; [|discriminate H].
  destruct (include_yaml stem (glob f) (read_yaml stem glob files n) (VDict y)) as [v|e] eqn:I; [|discriminate H].
  rewrite (include_mono stem (glob f) _ (read_yaml stem glob files m) (fun g z R => IH m g z (le_S_n _ _ L) R) _ _ I). exact H.
Qed.

(* a file that includes two files, one of which includes a third one *)
Definition ex_inc_files (f : string) : option (dict val) :=
  if String.eqb f "main" then Some [("device", VStr "eos"); ("bgp", VDict [("as", VInt 65000)]); ("_include", VList [VStr "*.inc"]);
                                    ("nested", VDict [("_include", VList [VStr "c"])])]
  else if String.eqb f "a" then Some [("x", VInt 1); ("_top", VDict [("device", VStr "frr"); ("bgp", VDict [("as", VInt 65001); ("id", VInt 7)]); ("new", VInt 2)])]
  else if String.eqb f "b" then Some [("y", VInt 3); ("_include", VList [VStr "c"])]
  else if String.eqb f "c" then Some [("z", VInt 4)]
  else None.

Definition ex_glob (f i : string) : list string :=
  if String.eqb i "*.inc" then ["a"; "b"] else if String.eqb i "c" then ["c"] else [].

Example ex_include : read_yaml (fun f => f) ex_glob ex_inc_files 5 "main" =
  Some [("device", VStr "eos"); ("bgp", VDict [("as", VInt 65001); ("id", VInt 7)]);
        ("nested", VDict [("c", VDict [("z", VInt 4)])]); ("new", VInt 2); ("a", VDict [("x", VInt 1)]);
        ("b", VDict [("y", VInt 3); ("c", VDict [("z", VInt 4)])])].
Proof. reflexivity. Qed.

Example ex_include_missing :
  include_yaml (fun f => f) (ex_glob "") (fun f => ex_inc_files f) (VDict [("_include", VList [VStr "nothing"])]) = Err (INoFile "nothing").
Proof. reflexivity. Qed.

(* An included file replaces a dictionary with its name in the file that includes it: the values there are lost. *)
Theorem include_replaces_refuted :
  include_yaml (fun f => f) (ex_glob "") (fun f => ex_inc_files f)
    (VDict [("c", VDict [("own", VInt 1)]); ("_include", VList [VStr "c"])]) = Ok (VDict [("c", VDict [("z", VInt 4)])]).
Proof. reflexivity. Qed.

Print Assumptions include_value.
Print Assumptions included_file_value.
Print Assumptions own_value_kept.
Print Assumptions top_values_merged.
Print Assumptions include_ok_iff.
Print Assumptions include_removed.
Print Assumptions read_clean.
Print Assumptions read_fuel_enough.
Print Assumptions include_replaces_refuted.
