(* Properties C21-C22: merging of data trees. *)
From Coq Require Import String ZArith Lia Bool List.
From Verif Require Import Base Box_Model.
Import ListNotations.

(* ------------------------------------------------------------------ *)
(* Specification                                                        *)

(* keys are unique in every dictionary (outside lists) *)
Fixpoint wf (v : val) : Prop :=
  match v with
  | VDict d => NoDup (dkeys d) /\
      (fix all (d : list (string * val)) : Prop :=
         match d with [] => True | (_, x) :: r => wf x /\ all r end) d
  | _ => True
  end.

Definition leaf (p : list string) (t v : val) : Prop := lookup p t = Some v /\ is_dict v = false.

(* the right operand says something about path p: it has a value there, or a non-dictionary
   on the way to it *)
Definition overridden (p : list string) (b : val) : Prop :=
  (exists v, lookup p b = Some v) \/
  (exists q r v, p = q ++ r /\ lookup q b = Some v /\ is_dict v = false).

(* ------------------------------------------------------------------ *)

Lemma val_ind2 : forall P : val -> Prop,
  (forall v, is_dict v = false -> P v) ->
  (forall d, (forall k v, In (k, v) d -> P v) -> P (VDict d)) ->
  forall v, P v.
Proof.
  intros P H1 H2. fix IH 1. intros v. destruct v; try (apply H1; reflexivity).
  apply H2. induction d as [|[k x] r IHr]; intros k' v' Hin.
  - contradiction.
  - destruct Hin as [E|Hin].
    + pose proof (IH x) as Px. congruence.
    + eapply IHr; eauto.
Qed.

Definition wf_dict (d : dict val) : Prop := NoDup (dkeys d) /\ forall k v, In (k, v) d -> wf v.

Lemma wf_VDict : forall d, wf (VDict d) <-> wf_dict d.
Proof.
  intros d. simpl. unfold wf_dict.
  assert (E : (fix all (d : list (string * val)) : Prop :=
         match d with [] => True | (_, x) :: r => wf x /\ all r end) d <-> forall k v, In (k, v) d -> wf v).
  { induction d as [|[k x] r IH]; simpl; [split; auto; intros _ k v []|]. rewrite IH. split.
    - intros [H1 H2] k' v' [E|Hin]; [congruence|eauto].
    - intros H. split; eauto. }
  rewrite E. tauto.
Qed.

Lemma wf_dget : forall d k v, wf (VDict d) -> dget k d = Some v -> wf v.
Proof. intros d k v H E. apply wf_VDict in H. destruct H as [_ H]. apply dget_In in E. eauto. Qed.

(* merge on dictionaries as a loop *)
Fixpoint mdict (da : dict val) (db : list (string * val)) : dict val :=
  match db with
  | [] => da
  | (k, v) :: r => mdict (dset k (match dget k da with Some va => merge va v | None => v end) da) r
  end.

Lemma merge_dicts : forall da db, merge (VDict da) (VDict db) = VDict (mdict da db).
Proof. intros da db. simpl. f_equal. Qed.

Lemma merge_scalar_r : forall a b, is_dict b = false -> merge a b = b.
Proof. intros a b H. destruct b; try reflexivity. discriminate. Qed.

Lemma merge_scalar_l : forall a b, is_dict a = false -> merge a b = b.
Proof. intros a b H. destruct b; try reflexivity. destruct a; try reflexivity. discriminate. Qed.

Definition mopt (x y : option val) : option val :=
  match x, y with
  | Some a, Some b => Some (merge a b)
  | Some a, None => Some a
  | None, y => y
  end.

Lemma dget_mdict : forall db da k, NoDup (dkeys db) ->
  dget k (mdict da db) = mopt (dget k da) (dget k db).
Proof.
  induction db as [|[k0 v0] r IH]; intros da k N; simpl.
  - destruct (dget k da); reflexivity.
  - inversion N; subst. rewrite IH by auto.
    destruct (String.eqb_spec k k0) as [->|Nk].
    + rewrite dget_dset_same. apply dget_None in H1. rewrite H1.
      destruct (dget k0 da); reflexivity.
    + rewrite dget_dset_other by auto. reflexivity.
Qed.

Lemma dkeys_mdict : forall db da, NoDup (dkeys db) ->
  dkeys (mdict da db) = dkeys da ++ filter (fun k => negb (memS k (dkeys da))) (dkeys db).
Proof.
  induction db as [|[k0 v0] r IH]; intros da N; simpl.
  - now rewrite app_nil_r.
  - inversion N; subst. rewrite IH by auto.
    destruct (memS k0 (dkeys da)) eqn:E; simpl.
    + apply memS_true in E. rewrite dkeys_dset_mem by auto. reflexivity.
    + apply memS_false in E. rewrite dkeys_dset_new by auto. rewrite <- app_assoc. simpl. f_equal. f_equal.
      apply filter_ext_in. intros k Hk.
      assert (k <> k0) by (intros ->; auto).
      f_equal. destruct (memS k (dkeys da)) eqn:E2.
      * apply memS_true. apply memS_true in E2. apply in_app_iff; auto.
      * apply memS_false. apply memS_false in E2. rewrite in_app_iff. simpl. intuition.
Qed.

Lemma NoDup_filter_str : forall (f : string -> bool) l, NoDup l -> NoDup (filter f l).
Proof. intros. now apply NoDup_filter. Qed.

Lemma NoDup_mdict : forall da db, NoDup (dkeys da) -> NoDup (dkeys db) -> NoDup (dkeys (mdict da db)).
Proof.
  intros da db Na Nb. rewrite dkeys_mdict by auto. apply NoDup_app_intro; auto.
  - now apply NoDup_filter.
  - intros x Hx Hy. apply filter_In in Hy. destruct Hy as [_ Hy]. apply negb_true_iff in Hy.
    apply memS_false in Hy. auto.
Qed.

Lemma dict_ext : forall (d1 d2 : dict val),
  NoDup (dkeys d1) -> dkeys d1 = dkeys d2 -> (forall k, dget k d1 = dget k d2) -> d1 = d2.
Proof.
  induction d1 as [|[k v] r IH]; intros [|[k2 v2] r2] N E G; simpl in *; try discriminate; auto.
  injection E as E1 E2. subst k2. inversion N as [|? ? N1 N2]; subst.
  pose proof (G k) as G0. rewrite !String.eqb_refl in G0. injection G0 as G0. subst v2. f_equal.
  apply IH; auto. intros k'. specialize (G k').
  destruct (String.eqb_spec k' k) as [Ek|Ek]; [rewrite Ek in *|auto].
  assert (N3 : ~ In k (dkeys r2)) by congruence.
  apply dget_None in N1. apply dget_None in N3. congruence.
Qed.

Theorem merge_wf : forall b a, wf a -> wf b -> wf (merge a b).
Proof.
  induction b as [b Hb|db IH] using val_ind2; intros a Wa Wb.
  - rewrite merge_scalar_r; auto.
  - destruct a as [| | | | |da]; try exact Wb.
    rewrite merge_dicts. pose proof Wa as Wa'. pose proof Wb as Wb'.
    apply wf_VDict in Wa. apply wf_VDict in Wb. destruct Wa as [Na Wa], Wb as [Nb Wb].
    apply wf_VDict. split; [now apply NoDup_mdict|].
    intros k v Hin. apply dget_NoDup in Hin; [|now apply NoDup_mdict].
    rewrite dget_mdict in Hin by auto.
    destruct (dget k da) as [x|] eqn:Ea; destruct (dget k db) as [y|] eqn:Eb; simpl in Hin; inversion Hin; subst.
    + eapply IH; [eapply dget_In; eauto|exact (wf_dget _ _ _ Wa' Ea)|exact (wf_dget _ _ _ Wb' Eb)].
    + eapply wf_dget; [exact Wa'|eauto].
    + eapply wf_dget; [exact Wb'|eauto].
Qed.

(* ------------------------------------------------------------------ *)
(* C21 *)

Lemma overridden_cons : forall k p d,
  overridden (k :: p) (VDict d) <-> exists x, dget k d = Some x /\ overridden p x.
Proof.
  intros k p d. unfold overridden. simpl. split.
  - intros [[v H]|[q [r [v [H1 [H2 H3]]]]]].
    + destruct (dget k d) as [x|]; [|discriminate]. exists x. split; auto. left. eauto.
    + destruct q as [|k' q]; simpl in *.
      * inversion H2; subst. discriminate.
      * inversion H1; subst. destruct (dget k' d) as [x|]; [|discriminate]. exists x. split; auto.
        right. exists q, r, v. auto.
  - intros [x [E [[v H]|[q [r [v [H1 [H2 H3]]]]]]]].
    + left. exists v. now rewrite E.
    + right. exists (k :: q), r, v. subst. simpl. rewrite E. auto.
Qed.

Lemma overridden_nil : forall b, overridden [] b.
Proof. intros b. left. exists b. reflexivity. Qed.

Lemma overridden_scalar : forall p b, is_dict b = false -> overridden p b.
Proof. intros p b H. right. exists [], p, b. auto. Qed.

(* The leaves of a merged tree are the leaves of the right operand plus the leaves of the left
   operand the right one says nothing about. *)
Theorem merge_leaves : forall a b p v, wf b ->
  (leaf p (merge a b) v <->
   leaf p b v \/ (leaf p a v /\ ~ overridden p b)).
Proof.
  intros a b. revert a.
  induction b as [b Hb|db IH] using val_ind2; intros a p v Wb.
  - rewrite merge_scalar_r by auto. split; auto. intros [H|[_ H]]; auto.
    exfalso. apply H. now apply overridden_scalar.
  - destruct (is_dict a) eqn:Da.
    2:{ rewrite merge_scalar_l by auto. split; auto. intros [H|[H1 H2]]; auto.
        destruct p as [|k p]; [exfalso; apply H2; apply overridden_nil|].
        destruct H1 as [H1 _]. destruct a; try discriminate. }
    destruct a as [| | | | |da]; try discriminate. rewrite merge_dicts.
    apply wf_VDict in Wb. destruct Wb as [Nb Wb].
    destruct p as [|k p].
    + unfold leaf. simpl. split.
      * intros [H1 H2]. inversion H1; subst. discriminate.
      * intros [[H1 H2]|[[H1 H2] _]]; inversion H1; subst; discriminate.
    + unfold leaf. simpl lookup. rewrite overridden_cons, dget_mdict by auto.
      destruct (dget k da) as [x|] eqn:Ea; destruct (dget k db) as [y|] eqn:Eb; simpl.
      * apply dget_In in Eb. specialize (IH k y Eb x p v (Wb k y Eb)). unfold leaf in IH. rewrite IH.
        split; intros [H|[H1 H2]]; auto; right; split; auto.
        -- intros [z [Hz1 Hz2]]. inversion Hz1; subst. auto.
        -- intros C. apply H2. exists y. auto.
      * split; [|intros [[C _]|[H _]]; [discriminate|auto]].
        intros H. right. split; auto. intros [z [Hz _]]. discriminate.
      * split; [auto|]. intros [H|[[C _] _]]; [auto|discriminate].
      * split; [intros [C _]; discriminate|]. intros [[C _]|[[C _] _]]; discriminate.
Qed.

Definition tree_a : val := VDict [("x", VInt 1); ("m", VDict [("p", VInt 2); ("q", VStr "old")])]%string.
Definition tree_b : val := VDict [("m", VDict [("q", VStr "new"); ("r", VBool true)]); ("y", VList [])]%string.

Example merge_case :
  merge tree_a tree_b =
  VDict [("x", VInt 1); ("m", VDict [("p", VInt 2); ("q", VStr "new"); ("r", VBool true)]); ("y", VList [])]%string
  /\ wf tree_a /\ wf tree_b.
Proof.
  split; [reflexivity|]. split; simpl; repeat split; repeat constructor; simpl; intuition discriminate.
Qed.

(* ------------------------------------------------------------------ *)
(* C22 *)

Theorem merge_idempotent : forall a, wf a -> merge a a = a.
Proof.
  induction a as [a Ha|d IH] using val_ind2; intros W.
  - now apply merge_scalar_r.
  - rewrite merge_dicts. f_equal. pose proof W as W'. apply wf_VDict in W. destruct W as [N W].
    apply dict_ext.
    + now apply NoDup_mdict.
    + rewrite dkeys_mdict by auto.
      assert (E : filter (fun k => negb (memS k (dkeys d))) (dkeys d) = []).
      { assert (G : forall l, incl l (dkeys d) -> filter (fun k => negb (memS k (dkeys d))) l = []).
        { induction l as [|k l IHl]; intros I; simpl; auto.
          assert (memS k (dkeys d) = true) by (apply memS_true; apply I; left; auto). rewrite H. simpl.
          apply IHl. intros z Hz; apply I; right; auto. }
        apply G. apply incl_refl. }
      now rewrite E, app_nil_r.
    + intros k. rewrite dget_mdict by auto. destruct (dget k d) as [x|] eqn:E; simpl; auto.
      f_equal. eapply IH; [eapply dget_In; eauto|eapply wf_dget; eauto].
Qed.

Theorem merge_unit_right : forall d, merge (VDict d) empty_box = VDict d.
Proof. reflexivity. Qed.

Theorem merge_unit_left : forall d, wf (VDict d) -> merge empty_box (VDict d) = VDict d.
Proof.
  intros d W. unfold empty_box. rewrite merge_dicts. f_equal. apply wf_VDict in W. destruct W as [N _].
  apply dict_ext.
  - apply NoDup_mdict; simpl; auto. constructor.
  - rewrite dkeys_mdict by auto. simpl. induction (dkeys d) as [|k r IH]; simpl; auto. f_equal. apply IH.
    now inversion N.
  - intros k. rewrite dget_mdict by auto. reflexivity.
Qed.

(* b is not a non-dictionary between two dictionaries *)
Definition compatible (a b c : val) : Prop :=
  forall p x y z, lookup p a = Some x -> lookup p b = Some y -> lookup p c = Some z ->
    is_dict x = true -> is_dict z = true -> is_dict y = true.

Lemma compatible_sub : forall da db dc k x y z,
  compatible (VDict da) (VDict db) (VDict dc) ->
  dget k da = Some x -> dget k db = Some y -> dget k dc = Some z -> compatible x y z.
Proof.
  intros da db dc k x y z C Ea Eb Ec p u v w H1 H2 H3 H4 H5.
  apply (C (k :: p) u v w); simpl; rewrite ?Ea, ?Eb, ?Ec; auto.
Qed.

Lemma filter_app_mem : forall la lb lc,
  la ++ filter (fun k => negb (memS k la)) (lb ++ filter (fun k => negb (memS k lb)) lc) =
  (la ++ filter (fun k => negb (memS k la)) lb) ++
     filter (fun k => negb (memS k (la ++ filter (fun k => negb (memS k la)) lb))) lc.
Proof.
  intros la lb lc. rewrite <- app_assoc. f_equal. rewrite filter_app. f_equal.
  induction lc as [|k r IH]; simpl; auto.
  assert (E : memS k (la ++ filter (fun k => negb (memS k la)) lb) = memS k la || memS k lb).
  { destruct (memS k la) eqn:E1; simpl.
    - apply memS_true. apply memS_true in E1. apply in_app_iff; auto.
    - destruct (memS k lb) eqn:E2.
      + apply memS_true. apply in_app_iff. right. apply filter_In. split; [now apply memS_true|]. now rewrite E1.
      + apply memS_false. apply memS_false in E1. apply memS_false in E2. rewrite in_app_iff.
        intros [C|C]; auto. apply filter_In in C. tauto. }
  rewrite E. destruct (memS k lb) eqn:E2; simpl.
  - rewrite orb_true_r. simpl. apply IH.
  - rewrite orb_false_r. destruct (memS k la) eqn:E1; simpl; [apply IH|]. f_equal. apply IH.
Qed.

Theorem merge_associative : forall b a c, wf a -> wf b -> wf c -> compatible a b c ->
  merge (merge a b) c = merge a (merge b c).
Proof.
  induction b as [b Hb|db IH] using val_ind2; intros a c Wa Wb Wc C.
  - rewrite (merge_scalar_r a b Hb), (merge_scalar_l b c Hb).
    destruct (is_dict a) eqn:Da; [|now rewrite merge_scalar_l].
    destruct (is_dict c) eqn:Dc; [|now rewrite merge_scalar_r].
    specialize (C [] a b c eq_refl eq_refl eq_refl Da Dc). congruence.
  - destruct (is_dict c) eqn:Dc; [|now rewrite !(merge_scalar_r _ c Dc)].
    destruct c as [| | | | |dc]; try discriminate.
    destruct (is_dict a) eqn:Da; [|now rewrite !(merge_scalar_l a)].
    destruct a as [| | | | |da]; try discriminate.
    rewrite !merge_dicts. f_equal.
    pose proof Wa as Wa'. pose proof Wb as Wb'. pose proof Wc as Wc'.
    apply wf_VDict in Wa. apply wf_VDict in Wb. apply wf_VDict in Wc.
    destruct Wa as [Na Wa], Wb as [Nb Wb], Wc as [Nc Wc].
    assert (Nab := NoDup_mdict da db Na Nb). assert (Nbc := NoDup_mdict db dc Nb Nc).
    apply dict_ext.
    + now apply NoDup_mdict.
    + rewrite !dkeys_mdict by auto. symmetry. apply filter_app_mem.
    + intros k. rewrite !dget_mdict by auto.
      destruct (dget k da) as [x|] eqn:Ea; destruct (dget k db) as [y|] eqn:Eb;
        destruct (dget k dc) as [z|] eqn:Ec; simpl; auto.
      f_equal. eapply IH.
      * eapply dget_In; eauto.
      * eapply wf_dget; [exact Wa'|eauto].
      * eapply wf_dget; [exact Wb'|eauto].
      * eapply wf_dget; [exact Wc'|eauto].
      * eapply compatible_sub; eauto.
Qed.

(* d + (d + n) = d + n: repeating a "defaults + node" merge changes nothing *)
Theorem merge_absorbing : forall d n, wf d -> wf n -> merge d (merge d n) = merge d n.
Proof.
  intros d n. revert d.
  induction n as [n Hn|dn IH] using val_ind2; intros d Wd Wn.
  - now rewrite !(merge_scalar_r d n Hn).
  - destruct (is_dict d) eqn:Dd; [|now rewrite !(merge_scalar_l d)].
    destruct d as [| | | | |dd]; try discriminate. rewrite !merge_dicts. f_equal.
    pose proof Wd as Wd'. pose proof Wn as Wn'.
    apply wf_VDict in Wd. apply wf_VDict in Wn. destruct Wd as [Nd Wd], Wn as [Nn Wn].
    assert (N := NoDup_mdict dd dn Nd Nn).
    apply dict_ext.
    + now apply NoDup_mdict.
    + rewrite !dkeys_mdict by auto.
      rewrite filter_app.
      assert (E1 : filter (fun k => negb (memS k (dkeys dd))) (dkeys dd) = []).
      { assert (G : forall l, incl l (dkeys dd) -> filter (fun k => negb (memS k (dkeys dd))) l = []).
        { induction l as [|k l IHl]; intros I; simpl; auto.
          assert (memS k (dkeys dd) = true) by (apply memS_true; apply I; left; auto). rewrite H. simpl.
          apply IHl. intros z Hz; apply I; right; auto. }
        apply G. apply incl_refl. }
      rewrite E1. simpl. f_equal.
      induction (dkeys dn) as [|k r IHr]; simpl; auto.
      destruct (negb (memS k (dkeys dd))) eqn:E; simpl; [rewrite E; f_equal|]; apply IHr; now inversion Nn.
    + intros k. rewrite !dget_mdict by auto.
      destruct (dget k dd) as [x|] eqn:Ed; destruct (dget k dn) as [y|] eqn:En; simpl; auto.
      * f_equal. eapply IH; [eapply dget_In; eauto|exact (wf_dget _ _ _ Wd' Ed)|exact (wf_dget _ _ _ Wn' En)].
      * f_equal. apply merge_idempotent. eapply wf_dget; [exact Wd'|eauto].
Qed.

(* Without the condition associativity fails. *)
Theorem merge_associative_refuted :
  exists a b c, wf a /\ wf b /\ wf c /\ merge (merge a b) c <> merge a (merge b c).
Proof.
  exists (VDict [("k", VDict [("p", VInt 1)])]%string), (VDict [("k", VBool true)]%string),
         (VDict [("k", VDict [("q", VInt 2)])]%string).
  repeat split; try (repeat constructor; simpl; tauto). vm_compute. discriminate.
Qed.

Example merge_laws_case :
  compatible tree_a tree_b tree_b /\ merge (merge tree_a tree_b) tree_b = merge tree_a tree_b.
Proof.
  split; [|reflexivity]. intros p x y z _ H1 H2 _ H3. congruence.
Qed.

(* ------------------------------------------------------------------ *)
(* Lemmas about repeated merging *)

Lemma merge_overridden : forall a b p, wf b -> overridden p (merge a b) -> overridden p a \/ overridden p b.
Proof.
  intros a b. revert a. induction b as [b Hb|db IH] using val_ind2; intros a p Wb H.
  - rewrite merge_scalar_r in H by auto. auto.
  - destruct (is_dict a) eqn:Da; [|rewrite merge_scalar_l in H by auto; auto].
    destruct a as [| | | | |da]; try discriminate. rewrite merge_dicts in H.
    destruct p as [|k p]; [left; apply overridden_nil|].
    rewrite overridden_cons in *. rewrite dget_mdict in H by (apply wf_VDict in Wb; apply Wb).
    destruct H as [x [H1 H2]]. rewrite overridden_cons.
    destruct (dget k da) as [y|] eqn:Ea; destruct (dget k db) as [z|] eqn:Eb; simpl in H1; try discriminate; injection H1 as <-.
    + destruct (IH k z (dget_In _ _ Eb) y p (wf_dget _ _ _ Wb Eb) H2); eauto.
    + eauto.
    + eauto.
Qed.

(* everything s could add is already settled in x *)
Fixpoint subsumed (s x : val) {struct s} : Prop :=
  match s with
  | VDict ds =>
      match x with
      | VDict dx => (fix all (ds : list (string * val)) : Prop :=
                       match ds with
                       | [] => True
                       | (k, v) :: r => (exists y, dget k dx = Some y /\ subsumed v y) /\ all r
                       end) ds
      | _ => True
      end
  | _ => True
  end.

Lemma subsumed_dict : forall ds dx,
  subsumed (VDict ds) (VDict dx) <-> forall k v, In (k, v) ds -> exists y, dget k dx = Some y /\ subsumed v y.
Proof.
  intros ds dx. simpl. induction ds as [|[k v] r IH]; simpl.
  - split; auto. intros _ k v [].
  - rewrite IH. split.
    + intros [H1 H2] k' v' [E|Hin]; [injection E as <- <-; auto|auto].
    + intros H. split; auto.
Qed.

Lemma subsumed_scalar_r : forall s x, is_dict x = false -> subsumed s x.
Proof. intros s x H. destruct s; simpl; auto. destruct x; auto. discriminate. Qed.
Lemma subsumed_scalar_l : forall s x, is_dict s = false -> subsumed s x.
Proof. intros s x H. destruct s; simpl; auto. discriminate. Qed.

Lemma subsumed_refl : forall s, wf s -> subsumed s s.
Proof.
  induction s as [s Hs|ds IH] using val_ind2; intros W; [apply subsumed_scalar_l; auto|].
  apply subsumed_dict. intros k v Hin. exists v. apply wf_VDict in W. destruct W as [N W].
  split; [apply dget_NoDup; auto|]. eauto.
Qed.

Lemma subsumed_merge_self : forall s x, wf s -> wf x -> subsumed s (merge s x).
Proof.
  induction s as [s Hs|ds IH] using val_ind2; intros x Ws Wx; [apply subsumed_scalar_l; auto|].
  destruct (is_dict x) eqn:Dx; [|rewrite merge_scalar_r by auto; apply subsumed_scalar_r; auto].
  destruct x as [| | | | |dx]; try discriminate. rewrite merge_dicts. apply subsumed_dict.
  intros k v Hin. rewrite dget_mdict by (apply wf_VDict in Wx; apply Wx).
  assert (G : dget k ds = Some v) by (apply dget_NoDup; auto; apply wf_VDict in Ws; apply Ws).
  rewrite G. destruct (dget k dx) as [y|] eqn:Ex; simpl.
  - exists (merge v y). split; auto. apply (IH k v Hin); eauto using wf_dget.
  - exists v. split; auto. apply subsumed_refl. exact (wf_dget _ _ _ Ws G).
Qed.

Lemma subsumed_merge : forall s e x, wf x -> subsumed s x -> subsumed s (merge e x).
Proof.
  induction s as [s Hs|ds IH] using val_ind2; intros e x Wx H; [apply subsumed_scalar_l; auto|].
  destruct (is_dict x) eqn:Dx; [|rewrite merge_scalar_r by auto; apply subsumed_scalar_r; auto].
  destruct x as [| | | | |dx]; try discriminate.
  destruct (is_dict e) eqn:De; [|rewrite merge_scalar_l by auto; auto].
  destruct e as [| | | | |de]; try discriminate. rewrite merge_dicts.
  rewrite subsumed_dict in *. intros k v Hin. destruct (H k v Hin) as [y [H1 H2]].
  rewrite dget_mdict by (apply wf_VDict in Wx; apply Wx). rewrite H1.
  destruct (dget k de) as [z|]; simpl.
  - exists (merge z y). split; auto. apply (IH k v Hin); eauto using wf_dget.
  - exists y. auto.
Qed.

Lemma subsumed_leaves : forall x s, wf x -> subsumed s x -> forall p v, leaf p (merge s x) v <-> leaf p x v.
Proof.
  induction x as [x Hx|dx IH] using val_ind2; intros s Wx H p v; [rewrite merge_scalar_r by auto; tauto|].
  destruct (is_dict s) eqn:Ds; [|rewrite merge_scalar_l by auto; tauto].
  destruct s as [| | | | |ds]; try discriminate. rewrite merge_dicts. rewrite subsumed_dict in H.
  destruct p as [|k p].
  - unfold leaf. simpl. split; intros [H1 H2]; injection H1 as <-; discriminate.
  - unfold leaf. simpl lookup. rewrite dget_mdict by (apply wf_VDict in Wx; apply Wx).
    destruct (dget k ds) as [y|] eqn:Es.
    + apply dget_In in Es. destruct (H k y Es) as [z [H1 H2]]. rewrite H1. simpl.
      apply (IH k z (dget_In _ _ H1) y (wf_dget _ _ _ Wx H1) H2 p v).
    + destruct (dget k dx); simpl; tauto.
Qed.

(* trees merged under a value one after another *)
Definition layer (ls : list val) (n : val) : val := fold_left (fun acc s => merge s acc) ls n.

Lemma layer_wf : forall ls n, wf n -> Forall wf ls -> wf (layer ls n).
Proof.
  induction ls as [|s r IH]; intros n Wn F; simpl; auto. inversion F; subst.
  apply IH; auto. apply merge_wf; auto.
Qed.

Lemma layer_keeps : forall ls n p v, wf n -> Forall wf ls -> leaf p n v -> leaf p (layer ls n) v.
Proof.
  induction ls as [|s r IH]; intros n p v Wn F L; simpl; auto. inversion F; subst.
  apply IH; auto; [apply merge_wf; auto|]. apply merge_leaves; auto.
Qed.

Lemma layer_origin : forall ls n p v, wf n -> Forall wf ls -> leaf p (layer ls n) v ->
  leaf p n v \/ exists s, In s ls /\ leaf p s v.
Proof.
  induction ls as [|s r IH]; intros n p v Wn F L; simpl in *; auto. inversion F; subst.
  destruct (IH (merge s n) p v) as [K|[x [K1 K2]]]; auto; [apply merge_wf; auto| |eauto].
  apply merge_leaves in K; auto. destruct K as [K|[K _]]; eauto.
Qed.

Lemma layer_first : forall l1 s l2 n p v, wf n -> Forall wf (l1 ++ s :: l2) ->
  leaf p s v -> ~ overridden p n -> (forall h, In h l1 -> ~ overridden p h) ->
  leaf p (layer (l1 ++ s :: l2) n) v.
Proof.
  induction l1 as [|h r IH]; intros s l2 n p v Wn F L O Ob; simpl in *; inversion F; subst.
  - apply layer_keeps; auto; [apply merge_wf; auto|]. apply merge_leaves; auto.
  - apply IH; auto; [apply merge_wf; auto|].
    intros K. apply merge_overridden in K; auto. destruct K as [K|K]; auto. apply (Ob h); auto.
Qed.

Lemma layer_subsumes : forall ls n s, wf n -> Forall wf ls -> In s ls \/ subsumed s n -> subsumed s (layer ls n).
Proof.
  induction ls as [|x r IH]; intros n s Wn F H; simpl in *.
  - destruct H as [[]|H]; auto.
  - inversion F; subst. apply IH; auto; [apply merge_wf; auto|]. destruct H as [[->|H]|H]; auto.
    + right. apply subsumed_merge_self; auto.
    + right. apply subsumed_merge; auto.
Qed.

Lemma layer_stable : forall ls n, wf n -> Forall wf ls -> (forall s, In s ls -> subsumed s n) ->
  forall p v, leaf p (layer ls n) v <-> leaf p n v.
Proof.
  induction ls as [|x r IH]; intros n Wn F H p v; simpl; [tauto|]. inversion F; subst.
  rewrite IH; auto.
  - apply subsumed_leaves; auto. apply H. left; auto.
  - apply merge_wf; auto.
  - intros s Hs. apply subsumed_merge; auto. apply H. right; auto.
Qed.

Lemma layer_idempotent : forall ls n, wf n -> Forall wf ls ->
  forall p v, leaf p (layer ls (layer ls n)) v <-> leaf p (layer ls n) v.
Proof.
  intros ls n Wn F. apply layer_stable; auto; [apply layer_wf; auto|].
  intros s Hs. apply layer_subsumes; auto.
Qed.

Print Assumptions merge_wf.
Print Assumptions merge_leaves.
Print Assumptions merge_idempotent.
Print Assumptions merge_unit_right.
Print Assumptions merge_unit_left.
Print Assumptions merge_associative.
Print Assumptions merge_absorbing.
Print Assumptions merge_associative_refuted.
