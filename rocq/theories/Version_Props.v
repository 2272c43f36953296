(* Properties of versioned topologies: C50. *)
From Coq Require Import String Ascii ZArith Lia Bool List.
From Coq Require Import Decimal DecimalString DecimalPos.
From Verif Require Import Base Text_Model Text_Props Types_Model Types_Props Vrf_Model Vrf_Props Version_Model.
Import ListNotations.
Open Scope Z_scope.

(* Versions are compared component by component, missing components being zero. *)
Definition same_version (a b : list Z) : Prop := forall i, nth i a 0 = nth i b 0.
Definition older (a b : list Z) : Prop := exists i, nth i a 0 < nth i b 0 /\ forall j, (j < i)%nat -> nth j a 0 = nth j b 0.
Definition not_newer (a b : list Z) : Prop := same_version a b \/ older a b.

Definition nonneg (v : list Z) : Prop := Forall (fun x => 0 <= x) v.

Lemma nth_nil : forall i, nth i (@nil Z) 0 = 0.
Proof. destruct i; auto. Qed.

Lemma nonneg_nth : forall v i, nonneg v -> 0 <= nth i v 0.
Proof.
  intros v i H. destruct (Nat.lt_ge_cases i (length v)) as [L|L].
  - apply Forall_nth; auto.
  - rewrite nth_overflow; auto. lia.
Qed.

Lemma zeros_spec : forall a, vle a [] = true <-> same_version a [].
Proof.
  induction a as [|x a IH]; cbn [vle].
  - split; auto. intros _ i. auto.
  - rewrite andb_true_iff, IH, Z.eqb_eq. split.
    + intros [-> H] [|i]; auto. cbn. rewrite (H i), nth_nil. auto.
    + intros H. split; [apply (H 0%nat)|]. intros i. specialize (H (S i)). cbn in H. rewrite H, nth_nil. auto.
Qed.

Theorem vle_spec : forall a b, nonneg a -> nonneg b -> (vle a b = true <-> not_newer a b).
Proof.
  induction a as [|x a IH]; intros b Na Nb.
  - cbn [vle]. split; auto. intros _.
    assert (D : (forall i, nth i b 0 = 0) \/ exists i, 0 < nth i b 0 /\ forall j, (j < i)%nat -> nth j b 0 = 0).
    { clear Na IHa || clear Na. induction b as [|y b IHb]; [left; apply nth_nil|]. inversion Nb as [|? ? Hy Hb]; subst.
      destruct (Z.eq_dec y 0) as [->|N].
      - destruct (IHb Hb) as [Z0|[i [P Q]]].
        + left. intros [|i]; auto. cbn. auto.
        + right. exists (S i). split; auto. intros [|j] L; auto. cbn. apply Q. lia.
      - right. exists 0%nat. split; [cbn; lia|]. intros j L. lia. }
    destruct D as [D|[i [P Q]]].
    + left. intros i. rewrite D, nth_nil. auto.
    + right. exists i. rewrite nth_nil. split; auto. intros j L. rewrite nth_nil, Q; auto.
  - destruct b as [|y b].
    + rewrite zeros_spec. split; [left; auto|]. intros [H|[i [P _]]]; auto. exfalso. rewrite nth_nil in P. pose proof (nonneg_nth (x :: a) i Na). lia.
    + inversion Na as [|? ? Hx Ha]; subst. inversion Nb as [|? ? Hy Hb]; subst. cbn [vle]. rewrite orb_true_iff, andb_true_iff, (IH b Ha Hb), Z.ltb_lt, Z.eqb_eq. split.
      * intros [L|[-> [S|[i [P Q]]]]].
        -- right. exists 0%nat. split; auto. intros j L'. lia.
        -- left. intros [|i]; auto. cbn. auto.
        -- right. exists (S i). split; auto. intros [|j] L; auto. cbn. apply Q. lia.
      * intros [S|[i [P Q]]].
        -- right. split; [apply (S 0%nat)|]. left. intros i. apply (S (Datatypes.S i)).
        -- destruct i as [|i]; [left; auto|]. right. split; [apply (Q 0%nat); lia|]. right. exists i. split; auto. intros j L. apply (Q (Datatypes.S j)). lia.
Qed.

Lemma vle_total : forall a b, nonneg a -> nonneg b -> vle a b = false -> vle b a = true /\ older b a.
Proof.
  induction a as [|x a IH]; intros b Na Nb H; [discriminate|]. inversion Na as [|? ? Hx Ha]; subst. destruct b as [|y b]; cbn [vle] in H.
  - split; auto. assert (N : not_newer [] (x :: a)) by (apply vle_spec; auto). destruct N as [S|O]; auto. exfalso.
    assert (C : vle (x :: a) [] = true) by (apply zeros_spec; intros i; symmetry; apply S). cbn [vle] in C. congruence.
  - inversion Nb as [|? ? Hy Hb]; subst. apply orb_false_iff in H. destruct H as [H1 H2]. apply Z.ltb_ge in H1.
    destruct (Z.eq_dec x y) as [E|N].
    + subst y. rewrite Z.eqb_refl in H2. cbn [andb] in H2. destruct (IH b Ha Hb H2) as [H3 [i [P Q]]]. split.
      * cbn [vle]. rewrite Z.eqb_refl, H3. apply orb_true_r.
      * exists (S i). split; auto. intros [|j] L; auto. cbn. apply Q. lia.
    + split.
      * cbn [vle]. replace (y <? x) with true by (symmetry; apply Z.ltb_lt; lia). auto.
      * exists 0%nat. split; [cbn; lia|]. intros j L. lia.
Qed.

Lemma not_newer_trans : forall a b c, not_newer a b -> not_newer b c -> not_newer a c.
Proof.
  intros a b c [S|[i [P Q]]] [S'|[k [P' Q']]].
  - left. intros j. rewrite S. auto.
  - right. exists k. split; [rewrite S; auto|]. intros j L. rewrite S. auto.
  - right. exists i. split; [rewrite <- S'; auto|]. intros j L. rewrite <- S'. auto.
  - right. destruct (Nat.lt_trichotomy i k) as [L|[L|L]].
    + exists i. split; [rewrite <- Q'; auto|]. intros j Lj. rewrite Q, Q'; auto. lia.
    + subst k. exists i. split; [lia|]. intros j Lj. rewrite Q, Q'; auto.
    + exists k. split; [rewrite Q; auto|]. intros j Lj. rewrite Q, Q'; auto. lia.
Qed.

Lemma older_irrefl : forall a b, older a b -> ~ not_newer b a.
Proof.
  intros a b [i [P Q]] [S|[k [P' Q']]]; [rewrite S in P; lia|].
  destruct (Nat.lt_trichotomy i k) as [L|[L|L]]; [rewrite Q' in P; auto; lia|subst; lia|rewrite Q in P'; auto; lia].
Qed.

(* ------------------------------------------------------------------ *)
(* Parsing                                                              *)

Lemma digit_val_nonneg : forall c, is_digit c = true -> 0 <= digit_val c.
Proof. intros [[] [] [] [] [] [] [] []] H; vm_compute in H; try discriminate; vm_compute; discriminate. Qed.

Lemma parse_digits_nonneg : forall s b acc n, 0 <= acc -> parse_digits b acc s = Some n -> 0 <= n.
Proof.
  induction s as [|c r IH]; intros b acc n A H; cbn [parse_digits] in H.
  - destruct b; [injection H as <-; auto|discriminate].
  - destruct (is_digit c) eqn:D.
    + apply IH in H; auto. pose proof (digit_val_nonneg c D). lia.
    + destruct (Ascii.eqb c "_" && b); [apply IH in H; auto|discriminate].
Qed.

Lemma all_some_spec : forall A (l : list (option A)) t, all_some l = Some t <-> l = map Some t.
Proof.
  induction l as [|[x|] l IH]; intros t; cbn [all_some].
  - split; [intros H; injection H as <-; auto|]. destruct t; [auto|discriminate].
  - destruct (all_some l) as [u|].
    + split.
      * intros H. injection H as <-. cbn. f_equal. apply IH. auto.
      * destruct t as [|y t]; [discriminate|]. cbn. intros H. injection H as -> H. apply IH in H. congruence.
    + split; [discriminate|]. destruct t as [|y t]; [discriminate|]. cbn. intros H. injection H as -> H. apply IH in H. discriminate.
  - split; [discriminate|]. destruct t; discriminate.
Qed.

Lemma parse_nonneg : forall s v, parse_version s = Some v -> nonneg v.
Proof.
  intros s v H. unfold parse_version in H. apply all_some_spec in H. unfold nonneg. apply Forall_forall. intros x Hx.
  assert (I : In (Some x) (map parse_number (split "." s))) by (rewrite H; apply in_map; auto).
  apply in_map_iff in I. destruct I as [p [E _]]. unfold parse_number in E. destruct (all_chars is_digit p); [|discriminate]. apply parse_digits_nonneg in E; lia.
Qed.

(* ------------------------------------------------------------------ *)
(* Selection                                                            *)

Definition applicable (running : list Z) (cands : list string) (v : list Z) : Prop :=
  exists c, In c cands /\ parse_version c = Some v /\ not_newer v running.

Lemma best_loop_spec : forall running cands best out, nonneg running -> (forall b, best = Some b -> nonneg b /\ not_newer b running) ->
  best_loop running cands best = Ok out ->
  (forall v, applicable running cands v \/ best = Some v -> exists b, out = Some b /\ not_newer v b)
  /\ (forall b, out = Some b -> applicable running cands b \/ best = Some b).
Proof.
  intros running cands. induction cands as [|c r IH]; intros best out Nr Hb H; cbn [best_loop] in H.
  - injection H as <-. split; [|auto]. intros v [[c [[] _]]|E]. exists v. split; auto. left. intros i. auto.
  - destruct (parse_version c) as [v|] eqn:P; [|discriminate]. pose proof (parse_nonneg _ _ P) as Nv.
    destruct (vle v running) eqn:L; cbn [negb] in H.
    + pose proof (proj1 (vle_spec v running Nv Nr) L) as Lr.
      assert (Step : forall best', (best' = Some v \/ (best' = best /\ exists b, best = Some b /\ not_newer v b)) ->
         (forall b, best = Some b -> exists b', best' = Some b' /\ not_newer b b') -> best_loop running r best' = Ok out ->
         (forall w, applicable running (c :: r) w \/ best = Some w -> exists b, out = Some b /\ not_newer w b)
         /\ (forall b, out = Some b -> applicable running (c :: r) b \/ best = Some b)).
      { intros best' C1 C2 H'. assert (Hb' : forall b, best' = Some b -> nonneg b /\ not_newer b running).
        { intros b E. destruct C1 as [C1|[C1 _]]; [assert (b = v) by congruence; subst; auto|apply Hb; congruence]. }
        destruct (IH best' out Nr Hb' H') as [I1 I2]. split.
        - intros w [[c' [[<-|Hc'] [P' Q']]]|E].
          + assert (w = v) by congruence. subst w. destruct C1 as [C1|[C1 [b [C3 C4]]]]; [apply I1; auto|].
            destruct (I1 b) as [b' [E1 E2]]; [right; congruence|]. exists b'. split; auto. apply (not_newer_trans v b b'); auto.
          + apply I1. left. exists c'. auto.
          + destruct (C2 w E) as [b' [E1 E2]]. destruct (I1 b' (or_intror E1)) as [b2 [E3 E4]]. exists b2. split; auto. apply (not_newer_trans w b' b2); auto.
        - intros b E. destruct (I2 b E) as [[c' [A1 A2]]|A]; [left; exists c'; split; [right|]; auto|].
          destruct C1 as [C1|[C1 _]]; [|right; congruence]. left. exists c. split; [left; auto|]. assert (b = v) by congruence. subst. auto. }
      destruct best as [b|].
      * destruct (Hb b eq_refl) as [Nb Lb]. destruct (vle v b) eqn:Vb.
        -- apply (Step (Some b)); auto.
           ++ right. split; auto. exists b. split; auto. apply vle_spec; auto.
           ++ intros b0 E. exists b. split; auto. injection E as <-. left. intros i. auto.
        -- apply (Step (Some v)); auto. intros b0 E. injection E as <-. exists v. split; auto. right. apply vle_total; auto.
      * apply (Step (Some v)); auto. intros b0 E. discriminate.
    + destruct (IH best out Nr Hb H) as [I1 I2]. split.
      * intros w [[c' [[<-|Hc'] [P' Q']]]|E]; auto; [|apply I1; left; exists c'; auto].
        exfalso. assert (w = v) by congruence. subst w. apply vle_spec in Q'; auto. congruence.
      * intros b E. destruct (I2 b E) as [[c' [A1 A2]]|A]; auto. left. exists c'. split; [right|]; auto.
Qed.

Lemma best_loop_error : forall running cands best, (exists e, best_loop running cands best = Err e) <-> exists c, In c cands /\ parse_version c = None.
Proof.
  intros running. induction cands as [|c r IH]; intros best; cbn [best_loop].
  - split; [intros [e E]; discriminate|intros [c [[] _]]].
  - destruct (parse_version c) as [v|] eqn:P.
    + assert (R : (exists c0, In c0 (c :: r) /\ parse_version c0 = None) <-> exists c0, In c0 r /\ parse_version c0 = None).
      { split; [intros [c0 [[<-|H] E]]; [congruence|eauto]|intros [c0 [H E]]; exists c0; split; [right|]; auto]. }
      rewrite R. destruct (negb (vle v running)); [apply IH|]. destruct best as [b|]; [destruct (vle v b)|]; apply IH.
    + split; [intros _; exists c; split; [left|]; auto|eauto].
Qed.

(* The newest version that is not newer than the running one is selected, the plain topology when there is none,
   and processing stops exactly when a file with an invalid version is found. *)
Theorem versioned_topology_best : forall running stem sfx cands, nonneg running ->
  match get_versioned_topology running stem sfx cands with
  | Err _ => exists c, In c cands /\ parse_version c = None
  | Ok name =>
      (forall c, In c cands -> parse_version c <> None) /\
      ((name = (stem ++ sfx)%string /\ forall v, ~ applicable running cands v)
       \/ exists b, name = (stem ++ "." ++ version_str b ++ sfx)%string /\ applicable running cands b
          /\ forall v, applicable running cands v -> not_newer v b)
  end.
Proof.
  intros running stem sfx cands Nr. unfold get_versioned_topology. pose proof (best_loop_error running cands None) as Er.
  destruct (best_loop running cands None) as [out|e] eqn:E.
  - apply best_loop_spec in E; auto; [|discriminate]. destruct E as [E1 E2].
    assert (V : forall c, In c cands -> parse_version c <> None).
    { intros c H C. destruct (proj2 Er (ex_intro _ c (conj H C))) as [e0 E0]. discriminate. }
    destruct out as [b|]; split; auto.
    + right. exists b. split; auto. split.
      * destruct (E2 b eq_refl) as [A|A]; [auto|discriminate].
      * intros v A. destruct (E1 v (or_introl A)) as [b' [E3 E4]]. congruence.
    + left. split; auto. intros v A. destruct (E1 v (or_introl A)) as [b' [E3 E4]]. discriminate.
  - apply Er. eauto.
Qed.

(* ------------------------------------------------------------------ *)
(* File names                                                           *)

Ltac digit_step :=
  match goal with |- context [is_digit ?c] => change (is_digit c) with true end; cbn match;
  match goal with |- context [digit_val ?c] => let v := eval vm_compute in (digit_val c) in change (digit_val c) with v end.

Lemma parse_uint_pos : forall d p, parse_digits true (Zpos p) (NilEmpty.string_of_uint d) = Some (Zpos (Pos.of_uint_acc d p)).
Proof.
  induction d; intros p; [reflexivity|..]; cbn [NilEmpty.string_of_uint Pos.of_uint_acc parse_digits]; rewrite <- IHd; digit_step; f_equal; lia.
Qed.

Lemma parse_uint_N : forall d b, b = true \/ d <> Decimal.Nil -> parse_digits b 0 (NilEmpty.string_of_uint d) = Some (Z.of_N (Pos.of_uint d)).
Proof.
  induction d; intros b H; [destruct H as [->|C]; [reflexivity|congruence]|..]; cbn [NilEmpty.string_of_uint Pos.of_uint parse_digits Z.of_N]; digit_step;
    [apply (IHd true); auto|..]; rewrite <- parse_uint_pos; f_equal.
Qed.

Lemma zdec_digits : forall n, 0 <= n -> digits (zdec n) /\ parse_digits false 0 (zdec n) = Some n.
Proof.
  intros n H. destruct n as [|p|p]; [split; reflexivity| |lia]. unfold zdec. cbn [Z.to_int NilZero.string_of_int].
  assert (Ne : Pos.to_uint p <> Decimal.Nil) by apply DecimalPos.Unsigned.to_uint_nonnil.
  assert (E : NilZero.string_of_uint (Pos.to_uint p) = NilEmpty.string_of_uint (Pos.to_uint p)) by (destruct (Pos.to_uint p); congruence || reflexivity).
  rewrite E. split; [apply uint_digits|]. rewrite parse_uint_N by auto. rewrite DecimalPos.Unsigned.of_to. reflexivity.
Qed.

Theorem version_str_parse : forall v, v <> [] -> nonneg v -> parse_version (version_str v) = Some v.
Proof.
  assert (P : forall x, 0 <= x -> parse_number (zdec x) = Some x).
  { intros x H. destruct (zdec_digits x H) as [D E]. unfold parse_number. unfold digits in D. rewrite D. auto. }
  assert (N : forall x, 0 <= x -> no_char "." (zdec x)).
  { intros x H. apply digits_no; auto. apply zdec_digits; auto. }
  intros v Ne Nn. unfold parse_version. apply all_some_spec. revert Ne. induction Nn as [|x v Hx Hv IH]; [congruence|]. intros _.
  destruct v as [|y v].
  - cbn [version_str]. rewrite split_none by auto. cbn [map]. rewrite P; auto.
  - change (version_str (x :: y :: v)) with (zdec x ++ String "." (version_str (y :: v)))%string. rewrite split_app by auto.
    cbn [map]. rewrite P by auto. f_equal. apply IH. discriminate.
Qed.

(* When versions in file names are written as netlab writes them, the selected file is one of the candidates. *)
Theorem versioned_topology_exists : forall running stem sfx cands name, nonneg running ->
  (forall c, In c cands -> exists v, v <> [] /\ nonneg v /\ c = version_str v) ->
  get_versioned_topology running stem sfx cands = Ok name -> name = (stem ++ sfx)%string \/ exists c, In c cands /\ name = (stem ++ "." ++ c ++ sfx)%string.
Proof.
  intros running stem sfx cands name Nr Cn H. pose proof (versioned_topology_best running stem sfx cands Nr) as B. rewrite H in B.
  destruct B as [_ [[B _]|[b [-> [[c [H1 [H2 _]]] _]]]]]; auto. right. exists c. split; auto.
  destruct (Cn c H1) as [v [Ne [Nn ->]]]. rewrite version_str_parse in H2 by auto. congruence.
Qed.

(* A version written with a leading zero selects a file that was not found. *)
Theorem versioned_topology_refuted : exists running cands name, nonneg running /\
  get_versioned_topology running "x" ".yml" cands = Ok name /\ name <> "x.yml"%string /\ forall c, In c cands -> name <> ("x." ++ c ++ ".yml")%string.
Proof.
  exists [1; 9; 3], ["1.08"]%string, "x.1.8.yml"%string. split; [repeat constructor; lia|]. split; [vm_compute; reflexivity|].
  split; [discriminate|]. intros c [<-|[]]. discriminate.
Qed.

Example version_case :
  get_versioned_topology [1; 9; 3] "x" ".yml" ["1.5"; "1.10"; "1.9.3"; "1.9.3.0"; "2.0"]%string = Ok "x.1.9.3.yml"%string
  /\ get_versioned_topology [1; 4] "x" ".yml" ["1.5"; "1.10"]%string = Ok "x.yml"%string
  /\ get_versioned_topology [1; 4] "x" ".yml" ["1.5"; "old.one"]%string = Err (InvalidVersion "old.one").
Proof. vm_compute. auto. Qed.

Print Assumptions vle_spec.
Print Assumptions versioned_topology_best.
Print Assumptions version_str_parse.
Print Assumptions versioned_topology_exists.
Print Assumptions versioned_topology_refuted.
