(* Properties of early checks of groups. *)
From Coq Require Import String Ascii ZArith Lia Bool List.
From Verif Require Import Base Box_Model Dev_Model Types_Model Mod_Model Groups_Model Gsan_Model Mod_Props Asg_Props.
Import ListNotations.
Local Open Scope string_scope.
Local Open Scope list_scope.

(* ------------------------------------------------------------------ *)
(* C237: early checks of groups                                         *)

(* members of a group: a list or a scalar *)
Inductive lists : val -> list val -> Prop :=
| LList : forall l, lists (VList l) l
| LStr : forall s, lists (VStr s) [VStr s]
| LInt : forall n, lists (VInt n) [VInt n]
| LBool : forall b, lists (VBool b) [VBool b].

(* a group with a usable definition and its form after the check *)
Inductive normal : val -> val -> Prop :=
| NList : forall l, normal (VList l) (VDict [("members", VList l)])
| NNone : forall d, dget "members" d = None -> normal (VDict d) (VDict d)
| NMembers : forall d m l, dget "members" d = Some m -> lists m l -> normal (VDict d) (VDict (dset "members" (VList l) d))
| NText : forall s, ~ occurs "members" s -> normal (VStr s) (VStr s).

Definition system (n : string) : Prop := exists r, n = String "_" r.

Lemma underscore_spec : forall n, underscore n = true <-> system n.
Proof.
  intros n. unfold system. destruct n as [|c r]; [split; [intros H; discriminate H|intros [r H]; discriminate H]|].
  destruct (Ascii.eqb_spec c "_") as [E|E].
  - subst c. split; [intros _; exists r; reflexivity|intros _; reflexivity].
  - split; [|intros [x H]; injection H as H1 H2; contradiction]. intros H. exfalso. apply E. revert H. destruct c as [[] [] [] [] [] [] [] []]; cbn; intros H; try discriminate H; reflexivity.
Qed.

Lemma members_test : forall d m, dget "members" d = Some m ->
  (forall l, lists m l -> type_test (must_be_list false) members_opts "members" d = (dset "members" (VList l) d, []))
  /\ ((forall l, ~ lists m l) -> type_test (must_be_list false) members_opts "members" d = (d, [WrongType])).
Proof.
  intros d m G. assert (M : dmem "members" d = true) by (unfold dmem; rewrite G; reflexivity).
  unfold type_test, get_value_to_check, get_value, members_opts. rewrite G. cbn [t_empty t_false t_create t_true t_values]. split.
  - intros l L. destruct L as [x|s|z|b]; [| | |destruct b]; cbv beta iota zeta; rewrite M; reflexivity.
  - intros N. destruct m as [|b|z|s|l|e].
    + cbv beta iota zeta. rewrite M. reflexivity.
    + exfalso. exact (N _ (LBool b)).
    + exfalso. exact (N _ (LInt z)).
    + exfalso. exact (N _ (LStr s)).
    + exfalso. exact (N _ (LList l)).
    + cbv beta iota zeta. rewrite M. reflexivity.
Qed.

Lemma lists_dec : forall m, (exists l, lists m l) \/ forall l, ~ lists m l.
Proof.
  intros m. destruct m as [|b|z|s|l|e].
  - right. intros l H. inversion H.
  - left. exists [VBool b]. constructor.
  - left. exists [VInt z]. constructor.
  - left. exists [VStr s]. constructor.
  - left. exists l. constructor.
  - right. intros l H. inversion H.
Qed.

(* one group: fine, or the first thing that is wrong *)
Lemma sane_group_spec : forall nodes n v,
  match snd (sane_group nodes n v) with
  | SDone => system n /\ fst (sane_group nodes n v) = v \/ ~ system n /\ ~ In n nodes /\ normal v (fst (sane_group nodes n v))
  | SNull k => k = n /\ ~ system n /\ v = VNull
  | SNode k => k = n /\ ~ system n /\ v <> VNull /\ In n nodes
  | SMembers k => k = n /\ ~ system n /\ ~ In n nodes /\ exists d m, v = VDict d /\ dget "members" d = Some m /\ forall l, ~ lists m l
  | SStop k => k = n /\ ~ system n /\ ~ In n nodes /\ ((exists s, v = VStr s /\ occurs "members" s) \/ (exists z, v = VInt z) \/ exists b, v = VBool b)
  end.
Proof.
  intros nodes n v. unfold sane_group. pose proof (underscore_spec n) as U. destruct (underscore n).
  { cbn [fst snd]. left. split; [apply U; reflexivity|reflexivity]. }
  assert (NS : ~ system n) by (intros Q; apply U in Q; discriminate Q).
  assert (MEM : forall x, memS n nodes = x -> x = true /\ In n nodes \/ x = false /\ ~ In n nodes).
  { intros x E. destruct x; [left; split; [reflexivity|apply memS_true; exact E]|right; split; [reflexivity|apply memS_false; exact E]]. }
  destruct (MEM _ eq_refl) as [[E I]|[E I]].
  - destruct v as [|b|z|s|l|d]; cbv zeta; rewrite ?E; cbn [fst snd]; [auto| | | | |]; (split; [reflexivity|]; split; [exact NS|]; split; [discriminate|exact I]).
  - destruct v as [|b|z|s|l|d]; cbv zeta; rewrite ?E; cbn [fst snd].
    + auto.
    + split; [reflexivity|]. split; [exact NS|]. split; [exact I|]. right. right. exists b. reflexivity.
    + split; [reflexivity|]. split; [exact NS|]. split; [exact I|]. right. left. exists z. reflexivity.
    + pose proof (contains_spec "members" s) as C. destruct (contains "members" s).
      * split; [reflexivity|]. split; [exact NS|]. split; [exact I|]. left. exists s. split; [reflexivity|apply C; reflexivity].
      * right. split; [exact NS|]. split; [exact I|]. constructor. intros Q. apply C in Q. discriminate Q.
    + right. split; [exact NS|]. split; [exact I|]. apply NList.
    + unfold dmem. destruct (dget "members" d) as [m|] eqn:G.
      * destruct (members_test d m G) as [A B]. destruct (lists_dec m) as [[l L]|L].
        -- rewrite (A l L). cbn [fst snd]. right. split; [exact NS|]. split; [exact I|]. exact (NMembers d m l G L).
        -- rewrite (B L). cbn [fst snd]. split; [reflexivity|]. split; [exact NS|]. split; [exact I|]. exists d, m. auto.
      * cbn [fst snd]. right. split; [exact NS|]. split; [exact I|]. constructor. exact G.
Qed.

Definition fine (nodes : list string) (p : string * val) : Prop :=
  system (fst p) \/ ~ In (fst p) nodes /\ exists w, normal (snd p) w.

(* the checks succeed exactly when all groups are fine; then lists become dictionaries and members become lists *)
Theorem group_sanity_exact : forall nodes groups,
  (snd (check_group_sanity nodes groups) = SDone <-> forall p, In p groups -> fine nodes p)
  /\ (snd (check_group_sanity nodes groups) = SDone ->
        Forall2 (fun p q => fst q = fst p /\ (system (fst p) /\ snd q = snd p \/ ~ system (fst p) /\ normal (snd p) (snd q))) groups (fst (check_group_sanity nodes groups))).
Proof.
  intros nodes. induction groups as [|[n v] r [IH1 IH2]].
  { split; [split; [intros _ p []|reflexivity]|]. intros _. constructor. }
  cbn [check_group_sanity]. cbv zeta. pose proof (sane_group_spec nodes n v) as S. set (s := sane_group nodes n v) in *. destruct s as [w o]. cbn [fst snd] in *.
  assert (NF : forall e, o = e -> e <> SDone -> ~ fine nodes (n, v)).
  { intros e E NE F. subst e. unfold fine in F. cbn [fst snd] in F. destruct o as [|k|k|k|k]; [contradiction NE; reflexivity| | | |].
    - destruct S as [_ [S1 S2]]. destruct F as [F|[_ [x F]]]; [contradiction|]. subst v. inversion F.
    - destruct S as [_ [S1 [_ S2]]]. destruct F as [F|[F _]]; contradiction.
    - destruct S as [_ [S1 [_ [d [m [E [G L]]]]]]]. destruct F as [F|[_ [x F]]]; [contradiction|]. subst v. inversion F as [|d0 G0|d0 m0 l0 G0 L0|]; subst; [congruence|]. rewrite G in G0. injection G0 as G0. subst m0. exact (L _ L0).
    - destruct S as [_ [S1 [_ S2]]]. destruct F as [F|[_ [x F]]]; [contradiction|]. destruct S2 as [[t [E O]]|[[z E]|[b E]]]; subst v; inversion F. contradiction. }
  assert (BAD : o <> SDone -> (o = SDone <-> forall p, In p ((n, v) :: r) -> fine nodes p)).
  { intros NE. split; [intros Q; contradiction|]. intros H. exfalso. apply (NF o eq_refl NE). apply H. left. reflexivity. }
  destruct o as [|k|k|k|k]; cbn [fst snd]; [|split; [apply BAD; discriminate|intros Q; discriminate Q]..].
  split.
  - rewrite IH1. split.
    + intros H p [P|P]; [subst p|apply H; exact P]. unfold fine. cbn [fst snd]. destruct S as [[S _]|[_ [S1 S2]]]; [left; exact S|right; split; [exact S1|exists w; exact S2]].
    + intros H p P. apply H. right. exact P.
  - intros Q. constructor; [|exact (IH2 Q)]. cbn [fst snd]. split; [reflexivity|]. destruct S as [[S1 S2]|[S1 [_ S2]]]; [left; auto|right; auto].
Qed.

(* the first group that is not fine decides the outcome; the groups after it stay as they are *)
Theorem group_sanity_first : forall nodes groups, snd (check_group_sanity nodes groups) <> SDone ->
  exists pre n v post, groups = pre ++ (n, v) :: post /\ (forall p, In p pre -> fine nodes p) /\ ~ system n
    /\ (exists pre' w, fst (check_group_sanity nodes groups) = pre' ++ (n, w) :: post /\ length pre' = length pre)
    /\ match snd (check_group_sanity nodes groups) with
       | SDone => False
       | SNull k => k = n /\ v = VNull
       | SNode k => k = n /\ In n nodes
       | SMembers k => k = n /\ exists d m, v = VDict d /\ dget "members" d = Some m /\ forall l, ~ lists m l
       | SStop k => k = n /\ ((exists s, v = VStr s /\ occurs "members" s) \/ (exists z, v = VInt z) \/ exists b, v = VBool b)
       end.
Proof.
  intros nodes. induction groups as [|[n v] r IH]; intros H; [contradiction H; reflexivity|].
  cbn [check_group_sanity] in *. cbv zeta in *. pose proof (sane_group_spec nodes n v) as S. set (s := sane_group nodes n v) in *. destruct s as [w o]. cbn [fst snd] in *.
  destruct o as [|k|k|k|k]; cbn [fst snd] in *.
  - destruct (IH H) as [pre [x [y [post [E [F [NS [[pre' [z [E' L]]] K]]]]]]]]. exists ((n, v) :: pre), x, y, post. split; [rewrite E; reflexivity|]. split.
    + intros p [P|P]; [subst p|apply F; exact P]. unfold fine. cbn [fst snd]. destruct S as [[S _]|[_ [S1 S2]]]; [left; exact S|right; split; [exact S1|exists w; exact S2]].
    + split; [exact NS|]. split; [|exact K]. exists ((n, w) :: pre'), z. split; [rewrite E'; reflexivity|cbn [length]; rewrite L; reflexivity].
  - exists [], n, v, r. split; [reflexivity|]. split; [intros p []|]. destruct S as [S0 [S1 S2]]. split; [exact S1|]. split; [exists [], w; split; reflexivity|]. auto.
  - exists [], n, v, r. split; [reflexivity|]. split; [intros p []|]. destruct S as [S0 [S1 [_ S2]]]. split; [exact S1|]. split; [exists [], w; split; reflexivity|]. auto.
  - exists [], n, v, r. split; [reflexivity|]. split; [intros p []|]. destruct S as [S0 [S1 [_ S2]]]. split; [exact S1|]. split; [exists [], w; split; reflexivity|]. auto.
  - exists [], n, v, r. split; [reflexivity|]. split; [intros p []|]. destruct S as [S0 [S1 [_ S2]]]. split; [exact S1|]. split; [exists [], w; split; reflexivity|]. auto.
Qed.

(* a group that is not a list or a dictionary passes (a text) or stops the program (a number) instead of being reported *)
Theorem group_type_reported_refuted : snd (check_group_sanity [] [("g", VStr "r1")]) = SDone /\ snd (check_group_sanity [] [("g", VInt 1)]) = SStop "g".
Proof. split; reflexivity. Qed.

Example group_sanity_case :
  check_group_sanity ["r1"] [("a", VList [VStr "r1"]); ("_x", VNull); ("b", VDict [("members", VStr "r1"); ("vars", VDict [])])] =
    ([("a", VDict [("members", VList [VStr "r1"])]); ("_x", VNull); ("b", VDict [("members", VList [VStr "r1"]); ("vars", VDict [])])], SDone)
  /\ check_group_sanity ["r1"] [("r1", VList []); ("b", VList [])] = ([("r1", VDict [("members", VList [])]); ("b", VList [])], SNode "r1").
Proof. split; reflexivity. Qed.

Print Assumptions group_sanity_exact.
Print Assumptions group_sanity_first.
Print Assumptions group_type_reported_refuted.
