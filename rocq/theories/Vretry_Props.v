(* Validation tests: attempts, retries, results and counters. *)
From Coq Require Import String Ascii ZArith Lia Bool List Permutation.
From Verif Require Import Base Vlink_Model Vtest_Model Vtest_Props.
Import ListNotations.
Local Open Scope nat_scope.
Local Open Scope string_scope.
Local Open Scope list_scope.

Section Loop.
Variable dev : string -> string.
Variable pact : string -> option bool.
Variable W : nat -> obs.
Notation NV := (node_validation dev pact).
Notation OP := (one_pass dev pact W).
Notation RT := (retry dev pact W).

(* ---- outcome of an attempt ---- *)

Inductive verdict := Pass | Fail | Unknown | Again.

Definition verdict_of (p : bool * option bool) : verdict :=
  match p with
  | (true, Some true) => Pass
  | (true, Some false) => Fail
  | (true, None) => Unknown
  | (false, _) => Again
  end.

(* a test with device commands and a validation expression *)
Definition plain (e : vtest) : Prop :=
  validate_test_entry e = None /\ v_valid e <> None /\ (v_show e <> None \/ v_exec e <> None).

(* what the attempt on a node has to do, from the attributes of the test and the observation *)
Inductive attempt_spec (e : vtest) (d : string) (report : bool) (o : obs) : verdict -> Prop :=
| as_none : usable d (v_show e) = false -> usable d (v_exec e) = false -> attempt_spec e d report o Unknown
| as_show_fail : usable d (v_show e) = true -> o_show o = false -> attempt_spec e d report o Fail
| as_exec_fail : usable d (v_show e) = false -> usable d (v_exec e) = true -> o_exec o = false -> report = true ->
                 attempt_spec e d report o Fail
| as_eval : forall v,
    (usable d (v_show e) = true /\ o_show o = true \/
     usable d (v_show e) = false /\ usable d (v_exec e) = true /\ (o_exec o = true \/ report = false)) ->
    match (if usable d (v_valid e) then o_ev o else EvEmpty) with
    | EvEmpty => v = Unknown
    | EvTrue => v = Pass
    | EvFalse => v = if report then Fail else Again
    end -> attempt_spec e d report o v.

Lemma plain_other : forall e, plain e -> v_config e = false /\ v_plugin e = false /\ v_suzieq e = None.
Proof.
  intros e [V [_ SE]]. apply test_entry_accepted in V. destruct V as [K1 _]. unfold kinds in K1.
  assert (G : given (v_show e) || given (v_exec e) = true).
  { apply orb_true_iff. destruct SE as [SE|SE]; apply given_true in SE; auto. }
  rewrite G in K1. cbn [one_if] in K1. destruct (v_config e), (v_plugin e), (v_suzieq e); cbn in K1; auto; lia.
Qed.

Lemma expr_usable : forall e d x, v_valid e <> None -> expr e d x = if usable d (v_valid e) then x else EvEmpty.
Proof. intros e d x H. unfold expr, usable. destruct (v_valid e) as [[|l]|]; [reflexivity|reflexivity|congruence]. Qed.

Definition count_of (e : vtest) (v : verdict) (c : vcnt) : vcnt :=
  match v with
  | Pass => mk_cnt (n_passed c + 1) (n_failed c) (n_warning c) (n_count c + 1) (n_skip c)
  | Fail => mk_cnt (n_passed c) (n_failed c + if v_warn e then 0 else 1) (n_warning c + if v_warn e then 1 else 0)
              (n_count c + 1) (n_skip c)
  | Unknown => mk_cnt (n_passed c) (n_failed c) (n_warning c) (n_count c) (n_skip c + 1)
  | Again => c
  end.

Lemma fail1_count : forall e c, fail1 e c = count_of e Fail c.
Proof. intros e [p f w n s]. unfold fail1, count_of. cbn. destruct (v_warn e); f_equal; lia. Qed.
Lemma pass1_count : forall e c, pass1 c = count_of e Pass c.
Proof. intros e [p f w n s]. unfold pass1, count_of. cbn. f_equal; lia. Qed.
Lemma skip1_count : forall e c, skip1 c = count_of e Unknown c.
Proof. intros e [p f w n s]. unfold skip1, count_of. cbn. f_equal; lia. Qed.

Theorem plain_attempt : forall e n report o c p c',
  plain e -> NV e n report o c = (p, c') ->
  attempt_spec e (dev n) report o (verdict_of p) /\ c' = count_of e (verdict_of p) c.
Proof.
  intros e n report o c p c' PL H. destruct (plain_other e PL) as [KC [KP KQ]]. destruct PL as [V [VV SE]].
  assert (CR : forall a, check_results e (dev n) o a None report c =
    match (if usable (dev n) (v_valid e) then o_ev o else EvEmpty) with
    | EvEmpty => ((true, None), skip1 c)
    | EvTrue => ((true, Some true), pass1 c)
    | EvFalse => if report then ((true, Some false), fail1 e c) else ((false, None), c)
    end).
  { intros a. unfold check_results. rewrite KP, KQ. apply given_true in VV. rewrite VV. cbn [andb].
    assert (X : eval_expr e (dev n) (o_ev o) report true c =
      match (if usable (dev n) (v_valid e) then o_ev o else EvEmpty) with
      | EvEmpty => (None, skip1 c) | EvTrue => (Some true, pass1 c) | EvFalse => (Some false, if report then fail1 e c else c) end).
    { unfold eval_expr. rewrite expr_usable by now apply given_true. reflexivity. }
    destruct a; rewrite X; destruct (if usable (dev n) (v_valid e) then o_ev o else EvEmpty); try reflexivity; destruct report; reflexivity. }
  assert (FIN : forall a, check_results e (dev n) o a None report c = (p, c') ->
      (usable (dev n) (v_show e) = true /\ o_show o = true \/
       usable (dev n) (v_show e) = false /\ usable (dev n) (v_exec e) = true /\ (o_exec o = true \/ report = false)) ->
      attempt_spec e (dev n) report o (verdict_of p) /\ c' = count_of e (verdict_of p) c).
  { intros a E Q. rewrite CR in E.
    destruct (if usable (dev n) (v_valid e) then o_ev o else EvEmpty) eqn:X.
    - inversion E; subst. split; [|apply skip1_count]. apply as_eval; [exact Q|]. rewrite X. reflexivity.
    - inversion E; subst. split; [|apply pass1_count]. apply as_eval; [exact Q|]. rewrite X. reflexivity.
    - destruct report; inversion E; subst; (split; [|try apply fail1_count; reflexivity]); (apply as_eval; [exact Q|]); rewrite X; reflexivity. }
  unfold node_validation, find_test_action in H. rewrite KC, KP, KQ in H. cbn [given] in H.
  destruct (usable (dev n) (v_show e)) eqn:U1.
  - destruct (o_show o) eqn:OS.
    + apply (FIN AShow H). left. auto.
    + inversion H; subst. split; [now apply as_show_fail|apply fail1_count].
  - destruct (usable (dev n) (v_exec e)) eqn:U2.
    + destruct (o_exec o) eqn:OE; cbn [negb andb] in H.
      * apply (FIN AExec H). right. auto.
      * destruct report eqn:RP; cbn in H.
        -- inversion H; subst. split; [now apply as_exec_fail|apply fail1_count].
        -- apply (FIN AExec H). right. auto.
    + assert (G : given (v_wait e) && negb (given (v_show e)) && negb (given (v_exec e)) = false).
      { destruct SE as [SE|SE]; apply given_true in SE; rewrite SE; cbn; rewrite ?andb_false_r; reflexivity. }
      rewrite G in H. inversion H; subst. split; [now apply as_none|apply skip1_count].
Qed.

(* ---- other kinds of tests ---- *)

Theorem plugin_attempt : forall e n report o c p c',
  validate_test_entry e = None -> v_plugin e = true -> NV e n report o c = (p, c') ->
  match pact (dev n) with
  | None => verdict_of p = Unknown /\ c' = count_of e Unknown c
  | Some show =>
      if (if show then o_show o else o_exec o || negb report) then
        match o_pl o with
        | PTrue => verdict_of p = Pass /\ c' = count_of e Pass c
        | PFalse => verdict_of p = (if report then Fail else Again) /\ c' = count_of e (verdict_of p) c
        | PNone => verdict_of p = Unknown /\ c' = c
        | PSkip => verdict_of p = Unknown /\ c' = count_of e Unknown c
        end
      else verdict_of p = Fail /\ c' = count_of e Fail c
  end.
Proof.
  intros e n report o c p c' V P H. apply test_entry_accepted in V. destruct V as [K [_ [_ [_ VD]]]].
  assert (F : v_show e = None /\ v_exec e = None /\ v_config e = false /\ v_suzieq e = None).
  { unfold kinds in K. rewrite P in K. destruct (v_show e), (v_exec e), (v_config e), (v_suzieq e); cbn in K; auto; lia. }
  destruct F as [F1 [F2 [F3 F4]]].
  assert (F5 : v_valid e = None).
  { destruct (v_valid e); [|reflexivity]. destruct VD as [X|[X|X]]; congruence. }
  assert (CR : forall a, check_results e (dev n) o a None report c =
    match o_pl o with
    | PTrue => ((true, Some true), pass1 c)
    | PFalse => if report then ((true, Some false), fail1 e c) else ((false, None), c)
    | PNone => ((true, None), c)
    | PSkip => ((true, None), skip1 c)
    end).
  { intros a. unfold check_results. rewrite F5, P. cbn [given andb]. unfold plugin_validation. destruct (o_pl o), report; reflexivity. }
  assert (FIN : forall a, check_results e (dev n) o a None report c = (p, c') ->
     match o_pl o with
     | PTrue => verdict_of p = Pass /\ c' = count_of e Pass c
     | PFalse => verdict_of p = (if report then Fail else Again) /\ c' = count_of e (verdict_of p) c
     | PNone => verdict_of p = Unknown /\ c' = c
     | PSkip => verdict_of p = Unknown /\ c' = count_of e Unknown c
     end).
  { intros a E. rewrite CR in E. destruct (o_pl o).
    - inversion E; subst. split; [reflexivity|apply pass1_count].
    - destruct report; inversion E; subst; (split; [reflexivity|]); [apply fail1_count|reflexivity].
    - inversion E; subst. auto.
    - inversion E; subst. split; [reflexivity|apply skip1_count]. }
  unfold node_validation, find_test_action in H. rewrite F1, F2, F3, F4, P in H. cbn [usable given] in H.
  destruct (pact (dev n)) as [[|]|].
  - destruct (o_show o); [now apply FIN in H|]. inversion H; subst. split; [reflexivity|apply fail1_count].
  - destruct (o_exec o); cbn [negb andb orb] in *; [now apply FIN in H|]. destruct report; cbn [negb].
    + inversion H; subst. split; [reflexivity|apply fail1_count].
    + now apply FIN in H.
  - inversion H; subst. split; [reflexivity|apply skip1_count].
Qed.

(* a command without an expression: its failure is noticed only after the deadline *)
Theorem command_attempt : forall e n report o c p c',
  validate_test_entry e = None -> v_exec e <> None -> v_valid e = None -> NV e n report o c = (p, c') ->
  if usable (dev n) (v_exec e) then
    if o_exec o || negb report then verdict_of p = Unknown /\ c' = c
    else verdict_of p = Fail /\ c' = count_of e Fail c
  else verdict_of p = Unknown /\ c' = count_of e Unknown c.
Proof.
  intros e n report o c p c' V X VV H. apply test_entry_accepted in V. destruct V as [K [_ [_ [SV _]]]].
  assert (F : v_config e = false /\ v_plugin e = false /\ v_suzieq e = None).
  { unfold kinds in K. destruct (v_exec e) as [x|]; [|congruence]. cbn [given] in K. rewrite orb_true_r in K. cbn [one_if] in K.
    destruct (v_config e), (v_plugin e), (v_suzieq e); cbn in K; auto; lia. }
  destruct F as [F1 [F2 F3]].
  assert (F4 : v_show e = None) by (destruct (v_show e); [exfalso; apply SV; congruence|reflexivity]).
  unfold node_validation, find_test_action in H. rewrite F1, F2, F3, F4 in H. cbn [usable given] in H. fold (usable (dev n) (v_exec e)) in H.
  destruct (usable (dev n) (v_exec e)).
  - assert (CR : check_results e (dev n) o AExec None report c = ((true, None), c)).
    { unfold check_results. rewrite VV, F2. reflexivity. }
    rewrite CR in H. destruct (o_exec o), report; cbn in *; inversion H; subst; (split; [reflexivity|]); try reflexivity. apply fail1_count.
  - apply given_true in X. rewrite X in H. cbn [negb] in H. rewrite andb_false_r in H. inversion H; subst. split; [reflexivity|apply skip1_count].
Qed.

(* SuzieQ without an expression: only the presence of data counts, and an error counts as data *)
Theorem suzieq_attempt : forall e n report o c p c' empty all,
  validate_test_entry e = None -> v_suzieq e = Some (empty, all) -> v_valid e = None -> NV e n report o c = (p, c') ->
  let data := match o_sq o with QErr => true | QBox b => b | QList l => negb (Nat.eqb (length l) 0) end in
  verdict_of p = (if Bool.eqb data empty then if report then Fail else Again else Pass) /\
  c' = if Bool.eqb data empty && report then count_of e Fail c else c.
Proof.
  intros e n report o c p c' empty all V Q VV H data. apply test_entry_accepted in V. destruct V as [K _].
  assert (F : v_show e = None /\ v_exec e = None /\ v_config e = false /\ v_plugin e = false).
  { unfold kinds in K. rewrite Q in K. destruct (v_show e), (v_exec e), (v_config e), (v_plugin e); cbn in K; auto; lia. }
  destruct F as [F1 [F2 [F3 F4]]].
  assert (D : sq_data (o_sq o) = data) by (unfold data, sq_data; destruct (o_sq o) as [|b|[|x r]]; reflexivity).
  unfold node_validation, find_test_action in H. rewrite F1, F2, F3, Q in H. cbn [usable given] in H. rewrite D in H. clearbody data.
  unfold check_results in H. rewrite VV, F4 in H. cbn [given] in H.
  destruct data, empty, report; cbn in *; inversion H; subst; (split; [reflexivity|]); try reflexivity; apply fail1_count.
Qed.

Theorem wait_attempt : forall e n report o c,
  kinds e = 0 -> v_wait e <> None -> NV e n report o c = ((true, Some true), c).
Proof.
  intros e n report o c K VW. unfold kinds in K.
  assert (F : v_show e = None /\ v_exec e = None /\ v_config e = false /\ v_plugin e = false /\ v_suzieq e = None).
  { destruct (v_show e), (v_exec e), (v_config e), (v_plugin e), (v_suzieq e); cbn in K; auto 6; lia. }
  destruct F as [F1 [F2 [F3 [F4 F5]]]]. unfold node_validation, find_test_action. rewrite F1, F2, F3, F4, F5.
  apply given_true in VW. rewrite VW. reflexivity.
Qed.

(* ---- all tests ---- *)

(* the attempt is repeated only before the deadline, and its result is then unknown *)
Lemma again_inv : forall e n report o c ok c',
  NV e n report o c = ((false, ok), c') -> report = false /\ ok = None.
Proof.
  intros e n report o c ok c' H. unfold node_validation in H.
  assert (CR : forall a k, check_results e (dev n) o a k report c = ((false, ok), c') -> report = false /\ ok = None).
  { intros a k E. unfold check_results in E.
    destruct (if _ && given (v_valid e) then _ else _) as [[[|]|] c1]; try (inversion E; fail).
    destruct report; inversion E; auto. }
  destruct (find_test_action pact e (dev n)) as [[| | | |]|].
  - destruct (o_show o); [now apply CR in H|inversion H].
  - destruct (negb (o_exec o) && report); [inversion H|now apply CR in H].
  - now apply CR in H.
  - destruct (negb _ && report); [inversion H|now apply CR in H].
  - inversion H.
  - inversion H.
Qed.

(* counters never decrease, and a failed attempt is counted *)
Definition cle (c c' : vcnt) : Prop :=
  n_passed c <= n_passed c' /\ n_failed c <= n_failed c' /\ n_warning c <= n_warning c' /\ n_skip c <= n_skip c'.
Definition bal (c : vcnt) : nat := n_count c - (n_passed c + n_failed c + n_warning c).
Definition balanced (c : vcnt) : Prop := n_count c = n_passed c + n_failed c + n_warning c.

Definition okc (e : vtest) (ok : option bool) (c c' : vcnt) : Prop :=
  cle c c' /\ (balanced c -> balanced c') /\
  (v_warn e = true -> n_failed c' = n_failed c) /\ (v_warn e = false -> n_warning c' = n_warning c) /\
  (ok = Some false -> n_failed c + n_warning c < n_failed c' + n_warning c').

Lemma okc_fail : forall e ok c, okc e ok c (fail1 e c).
Proof. intros e ok [p f w n s]. unfold okc, cle, balanced, fail1. destruct (v_warn e) eqn:X; cbn; repeat split; intros; try lia; try congruence. Qed.
Lemma okc_pass : forall e ok c, ok <> Some false -> okc e ok c (pass1 c).
Proof. intros e ok [p f w n s] N. unfold okc, cle, balanced, pass1. cbn. repeat split; intros; try lia; try congruence. Qed.
Lemma okc_skip : forall e ok c, ok <> Some false -> okc e ok c (skip1 c).
Proof. intros e ok [p f w n s] N. unfold okc, cle, balanced, skip1. cbn. repeat split; intros; try lia; try congruence. Qed.
Lemma okc_same : forall e ok c, ok <> Some false -> okc e ok c c.
Proof. intros e ok [p f w n s] N. unfold okc, cle, balanced. cbn. repeat split; intros; try lia; try congruence. Qed.
Lemma okc_trans : forall e o1 o2 c1 c2 c3, okc e o1 c1 c2 -> okc e o2 c2 c3 ->
  okc e (match o1, o2 with Some false, _ => Some false | _, x => x end) c1 c3.
Proof.
  intros e o1 o2 [p1 f1 w1 n1 s1] [p2 f2 w2 n2 s2] [p3 f3 w3 n3 s3]. unfold okc, cle, balanced. cbn.
  intros [[A1 [A2 [A3 A4]]] [B1 [C1 [D1 E1]]]] [[F1 [F2 [F3 F4]]] [G1 [H1 [I1 J1]]]].
  repeat split; intros; try lia; auto.
  - rewrite H1, C1; auto.
  - rewrite I1, D1; auto.
  - destruct o1 as [[|]|]; destruct o2 as [[|]|]; try discriminate; try specialize (E1 eq_refl); try specialize (J1 eq_refl); lia.
Qed.

Lemma eval_expr_okc : forall e d x (report success : bool) c ok c',
  eval_expr e d x report success c = (ok, c') -> okc e (if report then ok else None) c c'.
Proof.
  intros e d x report success c ok c' H. unfold eval_expr in H. destruct (expr e d x).
  - inversion H; subst. apply okc_skip. destruct report; congruence.
  - inversion H; subst. destruct success; [apply okc_pass|apply okc_same]; destruct report; congruence.
  - inversion H; subst. destruct report; [apply okc_fail|apply okc_same; congruence].
Qed.

Lemma okc_weak : forall e o c c', okc e o c c' -> okc e None c c'.
Proof. intros e o c c' [A [B [C [D E]]]]. unfold okc. repeat (split; [assumption|]). congruence. Qed.

Lemma sq_records_okc : forall e d all l report acc c ok c',
  sq_records e d all l report acc c = (ok, c') -> okc e None c c'.
Proof.
  intros e d all. induction l as [|x r IH]; intros report acc c ok c' H; cbn [sq_records] in H.
  - inversion H; subst. apply okc_same. congruence.
  - destruct (eval_expr e d x report false c) as [k c1] eqn:E. apply eval_expr_okc in E. apply okc_weak in E.
    apply IH in H. exact (okc_trans _ _ _ _ _ _ E H).
Qed.

Lemma sq_validation_okc : forall e d all o (report : bool) c ok c',
  sq_validation e d all o report c = (ok, c') -> okc e (if report then ok else None) c c'.
Proof.
  intros e d all o report c ok c' H. unfold sq_validation in H.
  destruct (match o_sq o with QList l => _ | _ => _ end) as [k c1] eqn:E.
  assert (A : okc e None c c1).
  { destruct (o_sq o); [apply eval_expr_okc in E; now apply okc_weak in E|apply eval_expr_okc in E; now apply okc_weak in E|].
    now apply sq_records_okc in E. }
  destruct k as [[|]|].
  - inversion H; subst. assert (B : okc e (if report then Some true else None) c1 (pass1 c1)) by (apply okc_pass; destruct report; congruence).
    exact (okc_trans _ _ _ _ _ _ A B).
  - inversion H; subst. destruct report.
    + exact (okc_trans _ _ _ _ _ _ A (okc_fail e (Some false) c1)).
    + exact A.
  - inversion H; subst. destruct report; exact A.
Qed.

Theorem attempt_counted : forall e n report o c done ok c',
  NV e n report o c = ((done, ok), c') -> okc e ok c c'.
Proof.
  intros e n report o c done ok c' H. unfold node_validation in H.
  assert (CR : forall a k, (k = Some false -> report = false) ->
               check_results e (dev n) o a k report c = ((done, ok), c') -> okc e ok c c').
  { intros a k KR E. unfold check_results in E.
    set (X := if _ && given (v_valid e) then _ else _) in E.
    assert (B : forall k1 c1, X = (k1, c1) -> okc e (if report then k1 else None) c c1).
    { intros k1 c1 EX. unfold X in EX. destruct (_ && given (v_valid e)).
      - destruct a; try (apply eval_expr_okc in EX; exact EX). destruct (v_suzieq e) as [[b all]|].
        + now apply sq_validation_okc in EX.
        + apply eval_expr_okc in EX; exact EX.
      - destruct (v_plugin e).
        + unfold plugin_validation in EX. destruct (o_pl o); inversion EX; subst.
          * apply okc_pass. destruct report; congruence.
          * destruct report; [apply okc_fail|apply okc_same; congruence].
          * apply okc_same. destruct report; congruence.
          * apply okc_skip. destruct report; congruence.
        + inversion EX; subst. apply okc_same. destruct report; [|congruence]. intros Q. apply KR in Q. congruence. }
    destruct X as [k1 c1]. specialize (B k1 c1 eq_refl).
    destruct k1 as [[|]|].
    - inversion E; subst. destruct report; [exact B|]. destruct B as [B1 [B2 [B3 [B4 _]]]]. unfold okc. repeat (split; [assumption|]). congruence.
    - destruct report; inversion E; subst; exact B.
    - inversion E; subst. destruct report; exact B. }
  destruct (find_test_action pact e (dev n)) as [[| | | |]|].
  - destruct (o_show o); [apply (CR AShow None); [congruence|exact H]|inversion H; subst; apply okc_fail].
  - destruct (negb (o_exec o) && report); [inversion H; subst; apply okc_fail|apply (CR AExec None); [congruence|exact H]].
  - apply (CR AConfig None); [congruence|exact H].
  - set (q := xorb (sq_data (o_sq o)) match v_suzieq e with Some (b, _) => b | None => false end) in H.
    destruct q; cbn [negb andb] in H.
    + apply (CR ASuzieq (Some true)); [congruence|exact H].
    + destruct report eqn:RP; [inversion H; subst; apply okc_fail|]. apply (CR ASuzieq (Some false)); [reflexivity|exact H].
  - inversion H; subst. apply okc_same. congruence.
  - inversion H; subst. apply okc_skip. congruence.
Qed.

(* ---- the loop ---- *)

Definition attempts (n : string) (tr : list attempt) : list attempt := filter (fun a => String.eqb (a_node a) n) tr.

(* the attempt was made with the observation of its number *)
Definition made (e : vtest) (stop : Z) (a : attempt) : Prop :=
  a_report a = Z.leb stop (o_time (W (a_obs a))) /\
  exists c c', NV e (a_node a) (a_report a) (W (a_obs a)) c = ((a_done a, a_ok a), c').

Definition finished (tr : list attempt) (n : string) : bool := existsb (fun a => String.eqb (a_node a) n && a_done a) tr.

Definition join (ret : option bool) (tr : list attempt) : option bool :=
  if existsb (fun a => match a_ok a with Some false => true | _ => false end) tr then Some false
  else match ret with
       | None => if existsb (fun a => match a_ok a with Some true => true | _ => false end) tr then Some true else None
       | _ => ret
       end.

Lemma filter_filter : forall A (f g : A -> bool) l, filter f (filter g l) = filter (fun x => g x && f x) l.
Proof. induction l as [|x r IH]; cbn; [reflexivity|]. destruct (g x); cbn; [destruct (f x)|]; rewrite ?IH; reflexivity. Qed.

Lemma one_pass_facts : forall e stop l rem ret k c rem2 ret2 tr k2 c2,
  OP e stop l rem ret k c = (rem2, ret2, tr, k2, c2) ->
  map a_node tr = l /\ map a_obs tr = seq k (length l) /\ k2 = k + length l /\
  (forall a, In a tr -> made e stop a) /\
  rem2 = filter (fun n => negb (finished tr n)) rem /\
  ret2 = join ret tr /\
  okc e (if existsb (fun a => match a_ok a with Some false => true | _ => false end) tr then Some false else None) c c2.
Proof.
  intros e stop. induction l as [|n r IH]; intros rem ret k c rem2 ret2 tr k2 c2 H; cbn [one_pass] in H.
  - inversion H; subst. cbn. split; [reflexivity|]. split; [reflexivity|]. split; [lia|]. split; [intros a []|].
    split; [|split].
    + induction rem2 as [|x l IL]; cbn; [reflexivity|]. unfold finished in *. cbn in *. now rewrite <- IL.
    + unfold join. cbn. destruct ret2 as [[|]|]; reflexivity.
    + apply okc_same. congruence.
  - destruct (NV e n (Z.leb stop (o_time (W k))) (W k) c) as [[proc ok] c1] eqn:N.
    destruct (OP e stop r (if proc then filter (fun x => negb (String.eqb x n)) rem else rem)
                (match ok, ret with Some true, None => Some true | Some false, _ => Some false | _, _ => ret end) (S k) c1)
      as [[[[r2 t2] tr2] k3] c3] eqn:P.
    inversion H; subst rem2 ret2 tr k2 c2. clear H.
    apply IH in P. destruct P as [P1 [P2 [P3 [P4 [P5 [P6 P7]]]]]].
    cbn [map length seq]. split; [now rewrite P1|]. split; [now rewrite P2|]. split; [lia|]. split; [|split; [|split]].
    + intros a [A|A]; [|now apply P4]. subst a. split; [reflexivity|]. cbn. exists c, c1. exact N.
    + rewrite P5. destruct proc.
      * rewrite filter_filter. apply filter_ext. intros x. unfold finished. cbn. rewrite (String.eqb_sym n x). destruct (String.eqb x n); reflexivity.
      * apply filter_ext. intros x. unfold finished. cbn. rewrite andb_false_r. reflexivity.
    + rewrite P6. unfold join. cbn [existsb a_ok]. destruct ok as [[|]|]; cbn [orb]; try reflexivity.
      * destruct (existsb _ tr2); [reflexivity|]. destruct ret as [[|]|]; reflexivity.
      * destruct (existsb _ tr2); reflexivity.
    + apply attempt_counted in N. cbn [existsb a_ok].
      pose proof (okc_trans _ _ _ _ _ _ N P7) as T. destruct ok as [[|]|]; cbn [orb]; try exact T.
Qed.

Lemma okc_join : forall e (b1 b2 : bool) c1 c2 c3,
  okc e (if b1 then Some false else None) c1 c2 -> okc e (if b2 then Some false else None) c2 c3 ->
  okc e (if b1 || b2 then Some false else None) c1 c3.
Proof. intros e b1 b2 c1 c2 c3 A B. pose proof (okc_trans _ _ _ _ _ _ A B) as T. destruct b1, b2; exact T. Qed.

Lemma join_app : forall ret t1 t2, join (join ret t1) t2 = join ret (t1 ++ t2).
Proof.
  intros ret t1 t2. unfold join. rewrite !existsb_app.
  destruct (existsb _ t1) eqn:A; cbn [orb].
  - destruct (existsb _ t2); reflexivity.
  - destruct (existsb (fun a => match a_ok a with Some false => true | _ => false end) t2); [reflexivity|].
    destruct ret as [[|]|]; try reflexivity.
    destruct (existsb (fun a => match a_ok a with Some true => true | _ => false end) t1); cbn [orb]; [reflexivity|].
    destruct (existsb _ t2); reflexivity.
Qed.

Lemma seq_app2 : forall a b k, seq k (a + b) = seq k a ++ seq (k + a) b.
Proof. intros. apply seq_app. Qed.

Lemma attempts_app : forall n a b, attempts n (a ++ b) = attempts n a ++ attempts n b.
Proof. intros. unfold attempts. apply filter_app. Qed.

Lemma attempts_nil : forall n tr, ~ In n (map a_node tr) -> attempts n tr = [].
Proof.
  intros n tr. induction tr as [|a r IH]; intros H; cbn; [reflexivity|]. destruct (String.eqb_spec (a_node a) n).
  - exfalso. apply H. now left.
  - apply IH. intros I. apply H. now right.
Qed.

Lemma attempts_one : forall n tr, NoDup (map a_node tr) -> In n (map a_node tr) ->
  exists a, attempts n tr = [a] /\ In a tr /\ a_node a = n /\ finished tr n = a_done a.
Proof.
  intros n tr. induction tr as [|a r IH]; intros ND I; [destruct I|]. cbn [map] in ND. inversion ND as [|x l X1 X2]; subst.
  cbn [attempts filter]. destruct (String.eqb_spec (a_node a) n) as [E|E].
  - exists a. fold (attempts n r). rewrite attempts_nil by (now rewrite <- E). repeat split; auto; [now left|].
    unfold finished. cbn. rewrite E, String.eqb_refl. cbn. destruct (a_done a); [reflexivity|]. cbn.
    destruct (existsb _ r) eqn:Q; [|reflexivity]. exfalso. apply existsb_exists in Q. destruct Q as [b [B1 B2]].
    apply andb_true_iff in B2. destruct B2 as [B2 _]. apply String.eqb_eq in B2. apply X1. rewrite E, <- B2. now apply in_map.
  - destruct I as [I|I]; [contradiction|]. destruct (IH X2 I) as [b [B1 [B2 [B3 B4]]]]. exists b. fold (attempts n r).
    repeat split; auto; [now right|]. unfold finished in *. cbn. destruct (String.eqb_spec (a_node a) n); [contradiction|]. exact B4.
Qed.

Lemma retry_facts : forall fuel e stop rem ret k c r tr k2 c2,
  RT fuel e stop rem ret k c = Some (r, tr, k2, c2) -> NoDup rem ->
  map a_obs tr = seq k (length tr) /\ k2 = k + length tr /\
  (forall a, In a tr -> made e stop a) /\ r = join ret tr /\
  okc e (if existsb (fun a => match a_ok a with Some false => true | _ => false end) tr then Some false else None) c c2 /\
  (forall n, In n rem -> exists pre a, attempts n tr = pre ++ [a] /\ (forall b, In b pre -> a_done b = false) /\ a_done a = true) /\
  (forall n, ~ In n rem -> attempts n tr = []).
Proof.
  induction fuel as [|f IH]; intros e stop rem ret k c r tr k2 c2 H ND.
  - cbn [retry] in H. destruct rem; [|discriminate H]. inversion H; subst. cbn. split; [reflexivity|]. split; [lia|]. split; [intros a []|].
    split; [unfold join; cbn; destruct r as [[|]|]; reflexivity|]. split; [apply okc_same; congruence|]. split; [intros n []|reflexivity].
  - cbn [retry] in H. destruct rem as [|n0 nr] eqn:RM.
    + inversion H; subst. cbn. split; [reflexivity|]. split; [lia|]. split; [intros a []|].
      split; [unfold join; cbn; destruct r as [[|]|]; reflexivity|]. split; [apply okc_same; congruence|]. split; [intros n []|reflexivity].
    + rewrite <- RM in *. clear RM n0 nr.
      destruct (OP e stop rem rem ret k c) as [[[[rem1 ret1] tr1] k1] c1] eqn:P.
      destruct (RT f e stop rem1 ret1 k1 c1) as [[[[r3 tr3] k3] c3]|] eqn:R; [|discriminate H]. inversion H; subst r3 tr k3 c3. clear H.
      apply one_pass_facts in P. destruct P as [P1 [P2 [P3 [P4 [P5 [P6 P7]]]]]].
      assert (L1 : length tr1 = length rem) by (rewrite <- P1; now rewrite map_length).
      apply IH in R; [|rewrite P5; now apply NoDup_filter]. destruct R as [R1 [R2 [R3 [R4 [R5 [R6 R7]]]]]].
      split; [rewrite map_app, app_length, seq_app, P2, R1, L1, P3; reflexivity|].
      split; [rewrite app_length; lia|].
      split; [intros a I; apply in_app_or in I; destruct I; auto|].
      split; [rewrite R4, P6; apply join_app|].
      split; [rewrite existsb_app; eapply okc_join; eauto|].
      split.
      * intros n I. rewrite attempts_app. rewrite <- P1 in I. rewrite <- P1 in ND. destruct (attempts_one n tr1 ND I) as [a [A1 [A2 [A3 A4]]]].
        rewrite A1. destruct (a_done a) eqn:D.
        -- exists [], a. rewrite R7; [|rewrite P5; intros J; apply filter_In in J; destruct J as [_ J]; rewrite A4 in J; discriminate J].
           cbn. repeat split; auto. intros b [].
        -- destruct (R6 n) as [pre [a2 [B1 [B2 B3]]]].
           { rewrite P5. apply filter_In. split; [now rewrite <- P1|]. now rewrite A4. }
           exists (a :: pre), a2. rewrite B1. cbn. repeat split; auto. intros b [B|B]; [now subst|now apply B2].
      * intros n I. rewrite attempts_app, R7, attempts_nil; [reflexivity|now rewrite P1|].
        rewrite P5. intros J. apply filter_In in J. tauto.
Qed.

(* a node is tried until it is done; retried attempts happened before the deadline *)
Theorem attempts_per_node : forall fuel e stop nodes ret k c r tr k2 c2,
  NoDup nodes -> RT fuel e stop nodes ret k c = Some (r, tr, k2, c2) ->
  (forall n, In n nodes -> exists pre a, attempts n tr = pre ++ [a] /\ a_done a = true /\
     forall b, In b pre -> a_done b = false /\ (o_time (W (a_obs b)) < stop)%Z /\ a_ok b = None) /\
  (forall n, ~ In n nodes -> attempts n tr = []) /\
  map a_obs tr = seq k (length tr) /\
  (forall a, In a tr -> made e stop a).
Proof.
  intros fuel e stop nodes ret k c r tr k2 c2 ND H. apply retry_facts in H; [|exact ND].
  destruct H as [H1 [H2 [H3 [H4 [H5 [H6 H7]]]]]]. split; [|auto].
  intros n I. destruct (H6 n I) as [pre [a [A [B C]]]]. exists pre, a. split; [exact A|]. split; [exact C|].
  intros b J. assert (T : In b tr).
  { assert (X : In b (attempts n tr)) by (rewrite A; apply in_or_app; now left). apply filter_In in X. tauto. }
  specialize (B b J). split; [exact B|]. destruct (H3 b T) as [M1 [c0 [c1 M2]]]. rewrite B in M2. apply again_inv in M2.
  destruct M2 as [M2 M3]. split; [|exact M3]. rewrite M1 in M2. now apply Z.leb_gt.
Qed.

(* the result of the test *)
Theorem test_result : forall fuel e stop nodes k c r tr k2 c2,
  NoDup nodes -> RT fuel e stop nodes None k c = Some (r, tr, k2, c2) ->
  (r = Some false <-> exists a, In a tr /\ a_ok a = Some false) /\
  (r = Some true <-> (exists a, In a tr /\ a_ok a = Some true) /\ forall a, In a tr -> a_ok a <> Some false) /\
  (r = None <-> forall a, In a tr -> a_ok a = None).
Proof.
  intros fuel e stop nodes k c r tr k2 c2 ND H. apply retry_facts in H; [|exact ND]. destruct H as [_ [_ [_ [H _]]]]. subst r.
  unfold join.
  destruct (existsb (fun a => match a_ok a with Some false => true | _ => false end) tr) eqn:F.
  - apply existsb_exists in F. destruct F as [a [A1 A2]]. destruct (a_ok a) as [[|]|] eqn:A3; try discriminate A2.
    split; [split; [intros _; now exists a|reflexivity]|]. split.
    + split; [intros X; discriminate X|]. intros [_ X]. now destruct (X a A1).
    + split; [intros X; discriminate X|]. intros X. specialize (X a A1). congruence.
  - assert (NF : forall a, In a tr -> a_ok a <> Some false).
    { intros a I E. assert (X : existsb (fun a => match a_ok a with Some false => true | _ => false end) tr = true) by (apply existsb_exists; exists a; now rewrite E). congruence. }
    destruct (existsb (fun a => match a_ok a with Some true => true | _ => false end) tr) eqn:T.
    + apply existsb_exists in T. destruct T as [a [A1 A2]]. destruct (a_ok a) as [[|]|] eqn:A3; try discriminate A2.
      split; [split; [intros X; discriminate X|intros [b [B1 B2]]; now destruct (NF b B1)]|]. split.
      * split; [intros _|reflexivity]. split; [now exists a|exact NF].
      * split; [intros X; discriminate X|]. intros X. specialize (X a A1). congruence.
    + split; [split; [intros X; discriminate X|intros [b [B1 B2]]; now destruct (NF b B1)]|].
      assert (NT : forall a, In a tr -> a_ok a = None).
      { intros a I. destruct (a_ok a) as [[|]|] eqn:E; [|now destruct (NF a I)|reflexivity]. exfalso.
        assert (X : existsb (fun a => match a_ok a with Some true => true | _ => false end) tr = true) by (apply existsb_exists; exists a; now rewrite E). congruence. }
      split.
      * split; [intros X; discriminate X|]. intros [[a [A1 A2]] _]. rewrite (NT a A1) in A2. discriminate A2.
      * split; auto.
Qed.

(* ---- termination ---- *)

Lemma one_pass_late : forall e stop l rem ret k c rem2 ret2 tr k2 c2,
  OP e stop l rem ret k c = (rem2, ret2, tr, k2, c2) ->
  (forall j, k <= j -> (stop <= o_time (W j))%Z) -> (forall n, In n rem -> In n l) -> rem2 = [].
Proof.
  intros e stop l rem ret k c rem2 ret2 tr k2 c2 H T SUB. apply one_pass_facts in H. destruct H as [P1 [P2 [_ [P4 [P5 _]]]]].
  subst rem2. assert (G : forall n, In n rem -> finished tr n = true).
  { intros n I. apply SUB in I. rewrite <- P1 in I. apply in_map_iff in I. destruct I as [a [A1 A2]].
    unfold finished. apply existsb_exists. exists a. split; [exact A2|]. rewrite A1, String.eqb_refl. cbn.
    destruct (P4 a A2) as [M1 [c0 [c1 M2]]]. destruct (a_done a); [reflexivity|]. exfalso. apply again_inv in M2. destruct M2 as [M2 _].
    rewrite M1 in M2. apply Z.leb_gt in M2. assert (K : k <= a_obs a).
    { assert (X : In (a_obs a) (seq k (length l))) by (rewrite <- P2; now apply in_map). apply in_seq in X. lia. }
    specialize (T (a_obs a) K). lia. }
  clear SUB P1 P4 P2. induction rem as [|n r IH]; cbn; [reflexivity|].
  rewrite (G n (or_introl eq_refl)). cbn. apply IH. intros m M. apply G. now right.
Qed.

Theorem retry_fuel_irrelevant : forall e stop f g rem ret k c x,
  RT f e stop rem ret k c = Some x -> f <= g -> RT g e stop rem ret k c = Some x.
Proof.
  intros e stop. induction f as [|f IHf]; intros g rem ret k c x H L; cbn [retry] in H.
  - destruct rem; [|discriminate H]. destruct g; exact H.
  - destruct g as [|g]; [lia|]. cbn [retry]. destruct rem as [|n0 nr] eqn:E; [exact H|]. rewrite <- E in *.
    destruct (OP e stop rem rem ret k c) as [[[[rem1 ret1] tr1] k1] c1].
    destruct (RT f e stop rem1 ret1 k1 c1) as [[[[r3 tr3] k3] c3]|] eqn:R; [|discriminate H].
    rewrite (IHf g _ _ _ _ _ R); [exact H|lia].
Qed.

Lemma retry_S : forall f e stop rem ret k c,
  RT (S f) e stop rem ret k c =
  match rem with
  | [] => Some (ret, [], k, c)
  | _ => let '(rem1, ret1, tr, k1, c1) := OP e stop rem rem ret k c in
         match RT f e stop rem1 ret1 k1 c1 with
         | Some (r, tr2, k2, c2) => Some (r, tr ++ tr2, k2, c2)
         | None => None
         end
  end.
Proof. reflexivity. Qed.

(* the loop ends when the clock passes the deadline *)
Theorem retry_terminates : forall e stop nodes ret k c K,
  (forall j, K <= j -> (stop <= o_time (W j))%Z) -> RT (S (S (K - k))) e stop nodes ret k c <> None.
Proof.
  intros e stop nodes ret k c K T. remember (K - k) as m eqn:M. revert nodes ret k c M.
  induction m as [m IH] using lt_wf_ind. intros nodes ret k c M.
  rewrite retry_S. destruct nodes as [|n0 nr] eqn:NN; [discriminate|]. rewrite <- NN in *.
  destruct (OP e stop nodes nodes ret k c) as [[[[rem1 ret1] tr1] k1] c1] eqn:P.
  assert (F : k1 = k + length nodes) by (apply one_pass_facts in P; tauto).
  assert (L : 1 <= length nodes) by (rewrite NN; cbn; lia). clear NN n0 nr.
  destruct m as [|m'].
  - assert (E : rem1 = []).
    { eapply one_pass_late; [exact P| |auto]. intros j J. apply T. lia. }
    rewrite E. discriminate.
  - assert (X : RT (S (S (K - k1))) e stop rem1 ret1 k1 c1 <> None).
    { apply (IH (K - k1)); [lia|reflexivity]. }
    destruct (RT (S (S (K - k1))) e stop rem1 ret1 k1 c1) as [y|] eqn:Y; [|congruence].
    rewrite (retry_fuel_irrelevant _ _ _ (S (S m')) _ _ _ _ _ Y) by lia. destruct y as [[[a b] d] g]. discriminate.
Qed.

(* a clock that stays before the deadline and expressions that are never true: the loop does not end *)
Theorem retry_forever : forall e stop nodes ret k c fuel,
  plain e -> nodes <> [] ->
  (forall n, In n nodes -> usable (dev n) (v_valid e) = true /\ usable (dev n) (v_show e) = false /\ usable (dev n) (v_exec e) = true) ->
  (forall j, (o_time (W j) < stop)%Z /\ o_ev (W j) = EvFalse) ->
  RT fuel e stop nodes ret k c = None.
Proof.
  intros e stop nodes ret k c fuel PL NE U T. revert ret k c. induction fuel as [|f IH]; intros ret k c; cbn [retry].
  - destruct nodes; [now destruct NE|reflexivity].
  - destruct nodes as [|n0 nr] eqn:NN; [now destruct NE|]. rewrite <- NN in *. clear NN n0 nr.
    destruct (OP e stop nodes nodes ret k c) as [[[[rem1 ret1] tr1] k1] c1] eqn:P.
    apply one_pass_facts in P. destruct P as [P1 [_ [_ [P4 [P5 _]]]]].
    assert (E : rem1 = nodes).
    { rewrite P5. assert (G : forall n, finished tr1 n = false).
      { intros n. unfold finished. destruct (existsb _ tr1) eqn:X; [|reflexivity]. exfalso. apply existsb_exists in X.
        destruct X as [a [A1 A2]]. apply andb_true_iff in A2. destruct A2 as [A2 A3]. apply String.eqb_eq in A2.
        destruct (P4 a A1) as [M1 [c0 [c2 M2]]]. destruct (T (a_obs a)) as [T1 T2].
        assert (R : a_report a = false) by (rewrite M1; now apply Z.leb_gt). rewrite R in M2.
        apply (plain_attempt _ _ _ _ _ _ _ PL) in M2. destruct M2 as [M2 _].
        assert (IN : In (a_node a) nodes) by (rewrite <- P1; now apply in_map).
        destruct (U _ IN) as [U1 [U2 U3]]. rewrite A3 in M2. inversion M2 as [Q1 Q2|Q1 Q2|Q1 Q2 Q3 Q4|v Q1 Q2]; subst; try congruence.
        rewrite U1, T2 in Q2. destruct (a_ok a) as [[|]|]; discriminate Q2. }
      clear P5. induction nodes as [|x y IN]; [now destruct NE|]. cbn. rewrite G. cbn. f_equal. clear - G. induction y as [|z w IW]; cbn; [reflexivity|].
      rewrite G. cbn. now f_equal. }
    rewrite E, IH. reflexivity.
Qed.

(* ---- counters ---- *)

Theorem counters_change : forall fuel e stop nodes k c r tr k2 c2,
  NoDup nodes -> RT fuel e stop nodes None k c = Some (r, tr, k2, c2) ->
  (balanced c -> balanced c2) /\
  n_passed c <= n_passed c2 /\ n_failed c <= n_failed c2 /\ n_warning c <= n_warning c2 /\ n_skip c <= n_skip c2 /\
  (v_warn e = true -> n_failed c2 = n_failed c) /\ (v_warn e = false -> n_warning c2 = n_warning c) /\
  (r = Some false -> v_warn e = false -> n_failed c < n_failed c2) /\
  (r = Some false -> v_warn e = true -> n_warning c < n_warning c2).
Proof.
  intros fuel e stop nodes k c r tr k2 c2 ND H. apply retry_facts in H; [|exact ND]. destruct H as [_ [_ [_ [H1 [H2 _]]]]].
  destruct H2 as [[A [B [C D]]] [E [F [G I]]]]. subst r. unfold join.
  repeat (split; [assumption|]).
  destruct (existsb (fun a => match a_ok a with Some false => true | _ => false end) tr).
  - specialize (I eq_refl). split; intros _ V; [specialize (G V)|specialize (F V)]; lia.
  - destruct (existsb _ tr); split; intros X; discriminate X.
Qed.

Definition tally (f : attempt -> bool) (tr : list attempt) : nat := length (filter f tr).
Definition is_verdict (v : verdict) (a : attempt) : bool :=
  match v, verdict_of (a_done a, a_ok a) with
  | Pass, Pass | Fail, Fail | Unknown, Unknown | Again, Again => true
  | _, _ => false
  end.

Lemma tally_cons : forall f a tr, tally f (a :: tr) = (if f a then 1 else 0) + tally f tr.
Proof. intros f a tr. unfold tally. cbn. destruct (f a); reflexivity. Qed.

Lemma one_pass_counts : forall e stop l rem ret k c rem2 ret2 tr k2 c2,
  plain e -> OP e stop l rem ret k c = (rem2, ret2, tr, k2, c2) ->
  c2 = mk_cnt (n_passed c + tally (is_verdict Pass) tr)
         (n_failed c + if v_warn e then 0 else tally (is_verdict Fail) tr)
         (n_warning c + if v_warn e then tally (is_verdict Fail) tr else 0)
         (n_count c + tally (is_verdict Pass) tr + tally (is_verdict Fail) tr)
         (n_skip c + tally (is_verdict Unknown) tr).
Proof.
  intros e stop. induction l as [|n r IH]; intros rem ret k c rem2 ret2 tr k2 c2 PL H; cbn [one_pass] in H.
  - inversion H; subst. destruct c2. cbn. destruct (v_warn e); f_equal; lia.
  - destruct (NV e n (Z.leb stop (o_time (W k))) (W k) c) as [[proc ok] c1] eqn:N.
    destruct (OP e stop r (if proc then filter (fun x => negb (String.eqb x n)) rem else rem)
                (match ok, ret with Some true, None => Some true | Some false, _ => Some false | _, _ => ret end) (S k) c1)
      as [[[[r2 t2] tr2] k3] c3] eqn:P.
    inversion H; subst rem2 ret2 tr k2 c2. clear H. apply IH in P; [|exact PL]. subst c3.
    apply (plain_attempt _ _ _ _ _ _ _ PL) in N. destruct N as [_ N]. subst c1.
    rewrite !tally_cons. generalize (tally (is_verdict Pass) tr2), (tally (is_verdict Fail) tr2), (tally (is_verdict Unknown) tr2).
    intros x y z. unfold is_verdict. cbn [a_done a_ok].
    destruct (verdict_of (proc, ok)); cbn [count_of n_passed n_failed n_warning n_count n_skip]; destruct (v_warn e); f_equal; lia.
Qed.

(* tests with a device command and an expression: every attempt that is not repeated is counted once *)
Theorem plain_counters : forall fuel e stop nodes ret k c r tr k2 c2,
  plain e -> RT fuel e stop nodes ret k c = Some (r, tr, k2, c2) ->
  n_passed c2 = n_passed c + tally (is_verdict Pass) tr /\
  n_skip c2 = n_skip c + tally (is_verdict Unknown) tr /\
  n_count c2 = n_count c + tally (is_verdict Pass) tr + tally (is_verdict Fail) tr /\
  (v_warn e = false -> n_failed c2 = n_failed c + tally (is_verdict Fail) tr /\ n_warning c2 = n_warning c) /\
  (v_warn e = true -> n_warning c2 = n_warning c + tally (is_verdict Fail) tr /\ n_failed c2 = n_failed c).
Proof.
  induction fuel as [|f IH]; intros e stop nodes ret k c r tr k2 c2 PL H.
  - cbn [retry] in H. destruct nodes; [|discriminate H]. inversion H; subst. cbn. repeat split; intros; lia.
  - cbn [retry] in H. destruct nodes as [|n0 nr] eqn:NN.
    + inversion H; subst. cbn. repeat split; intros; lia.
    + rewrite <- NN in *. destruct (OP e stop nodes nodes ret k c) as [[[[rem1 ret1] tr1] k1] c1] eqn:P.
      destruct (RT f e stop rem1 ret1 k1 c1) as [[[[r3 tr3] k3] c3]|] eqn:R; [|discriminate H]. inversion H; subst r3 tr k3 c3.
      apply one_pass_counts in P; [|exact PL]. apply IH in R; [|exact PL]. destruct R as [R1 [R2 [R3 [R4 R5]]]].
      unfold tally in *. rewrite !filter_app, !app_length. subst c1. cbn [n_passed n_failed n_warning n_count n_skip] in *.
      repeat split; intros; try lia.
      * destruct (R4 H0) as [R6 _]. rewrite H0 in R6. lia.
      * destruct (R4 H0) as [_ R6]. rewrite H0 in R6. lia.
      * destruct (R5 H0) as [R6 _]. rewrite H0 in R6. lia.
      * destruct (R5 H0) as [_ R6]. rewrite H0 in R6. lia.
Qed.
End Loop.

(* ---- examples ---- *)

Example session_plain : plain t_session.
Proof. unfold plain. split; [vm_compute; reflexivity|]. split; [cbn; congruence|left; cbn; congruence]. Qed.

(* three routers; the session of the second one comes up after some time, the one of the third one never does *)
Example session_retry :
  let e := set_nodes t_session ["x1"; "x2"; "x3"] in
  let lab := fun k => mk_obs (Z.of_nat k) true true QErr (if Nat.eqb k 0 || Nat.eqb k 3 then EvTrue else EvFalse) PFalse true in
  option_map (fun x => match x with (r, tr, k, c) => (r, map (fun a => (a_node a, a_obs a, a_done a)) tr, k, c) end)
    (retry (fun _ => "frr") (fun _ => None) lab 10 e 6%Z (nodes_of e) None 0 cnt0)
  = Some (Some false, [("x1", 0, true); ("x2", 1, false); ("x3", 2, false); ("x2", 3, true); ("x3", 4, false);
                       ("x3", 5, false); ("x3", 6, true)], 7, mk_cnt 2 1 0 3 0).
Proof. vm_compute. reflexivity. Qed.

Example plugin_entry :
  let e := mk_vtest "adj" (Some ["x1"]) None None None false None true None (Some 10%Z) false false in
  validate_test_entry e = None /\
  node_validation (fun _ => "frr") (fun _ => Some true) e "x1" true (mk_obs 0 true true QErr EvTrue PFalse true) cnt0
    = ((true, Some false), mk_cnt 0 1 0 1 0).
Proof. vm_compute. auto. Qed.

Print Assumptions plugin_attempt.
Print Assumptions command_attempt.
Print Assumptions suzieq_attempt.
Print Assumptions wait_attempt.
Print Assumptions plain_attempt.
Print Assumptions attempt_counted.
Print Assumptions attempts_per_node.
Print Assumptions test_result.
Print Assumptions retry_terminates.
Print Assumptions retry_fuel_irrelevant.
Print Assumptions retry_forever.
Print Assumptions counters_change.
Print Assumptions plain_counters.
