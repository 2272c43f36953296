(* Properties of the error log: C51. *)
From Coq Require Import String Ascii Arith Lia Bool List.
From Verif Require Import Base Text_Model Types_Props Log_Model.
Import ListNotations.
Local Open Scope string_scope.
Local Open Scope list_scope.

(* Operations that report an error *)
Definition reports_error (op : log_op) : Prop :=
  match op with
  | LReport c _ _ _ _ _ _ => c <> "Warning"
  | LFatal _ _ => True
  | _ => False
  end.

(* Operations that end the program whatever happened before *)
Definition ends (op : log_op) : Prop :=
  match op with
  | LReport c _ _ _ _ _ exit => c <> "Warning" /\ exit = true
  | LFatal _ _ => True
  | _ => False
  end.

Lemma warn_spec : forall c, is_warning c = true <-> c = "Warning".
Proof. intros c. apply String.eqb_eq. Qed.

Lemma split_nonempty : forall s, 0 < length (split newline s).
Proof. intros s. destruct (split_inv newline s) as [h [t [-> _]]]. cbn. lia. Qed.

Lemma report_warning : forall quiet st m t d h s x, lg_err (fst (report quiet st "Warning" m t d h s x)) = lg_err st /\ snd (report quiet st "Warning" m t d h s x) = false.
Proof.
  intros. unfold report. change (is_warning "Warning") with true. destruct quiet; cbn [andb]; auto. cbn [fst snd lg_err].
  rewrite andb_false_r. split; auto. cbn [hint_lines]. destruct h as [h|]; [destruct (existsb (lines_eqb h) (lg_hints st))|]; rewrite ?app_nil_r; auto.
Qed.

Lemma report_error : forall quiet st c m t d h s x, c <> "Warning" ->
  (exists more, more <> [] /\ lg_err (fst (report quiet st c m t d h s x)) = lg_err st ++ more)
  /\ lg_warn (fst (report quiet st c m t d h s x)) = lg_warn st /\ snd (report quiet st c m t d h s x) = x.
Proof.
  intros quiet st c m t d h s x N. assert (W : is_warning c = false) by (destruct (is_warning c) eqn:E; auto; apply warn_spec in E; contradiction).
  unfold report. rewrite W. cbn [andb fst snd lg_err lg_warn]. rewrite andb_true_r. split; auto.
  assert (S : split newline (err_line c m t) <> []) by (pose proof (split_nonempty (err_line c m t)) as L; intros C; rewrite C in L; cbn in L; lia).
  assert (G : forall a b, a <> [] -> a ++ b <> ([] : list string)) by (intros [|y l] b Hy C; [congruence|discriminate]).
  destruct h as [h|]; [destruct (existsb (lines_eqb h) (lg_hints st))|]; rewrite <- ?app_assoc; eexists; (split; [|reflexivity]); auto.
Qed.

Lemma repeat_err : forall quiet ws st, lg_err (fold_left (warn_line quiet) ws st) = lg_err st.
Proof.
  intros quiet. induction ws as [|w ws IH]; intros st; auto. cbn [fold_left]. rewrite IH. apply report_warning.
Qed.

(* One step: the error log only grows, it grows exactly for errors and for checkpoints that end the program *)
Lemma step_spec : forall quiet st op st' stop, log_step quiet st op = (st', stop) ->
  (exists more, lg_err st' = lg_err st ++ more /\ (reports_error op -> more <> []) /\ (~ reports_error op -> stop = false -> more = []))
  /\ (stop = true <-> ends op \/ exists n, op = LCheck n /\ n < length (lg_err st)).
Proof.
  intros quiet st op st' stop H. destruct op as [c m t d h s x|m t|n|cmd|a]; cbn [log_step] in H.
  - destruct (string_dec c "Warning") as [->|N].
    + pose proof (report_warning quiet st m t d h s x) as [R1 R2]. rewrite H in R1, R2. cbn [fst snd] in *. split.
      * exists []. rewrite app_nil_r. split; auto.
      * rewrite R2. split; [discriminate|]. intros [[C _]|[n [C _]]]; congruence.
    + destruct (report_error quiet st c m t d h s x N) as [[more [R1 R2]] [_ R3]]. rewrite H in R2, R3. cbn [fst snd] in *. split.
      * exists more. split; auto. split; auto. cbn. tauto.
      * cbn [ends]. rewrite R3. split; auto. intros [[_ C]|[n [C _]]]; congruence.
  - injection H as <- <-. split.
    + exists (split newline (fatal_line m t)). split; auto. split; [|cbn; tauto]. intros _ C.
      pose proof (split_nonempty (fatal_line m t)) as L. rewrite C in L. cbn in L. lia.
    + cbn. tauto.
  - destruct (Nat.ltb_spec n (length (lg_err st))) as [L|L]; injection H as <- <-.
    + split.
      * eexists. split; [cbn [fatal lg_err]; reflexivity|]. split; [intros []|discriminate].
      * split; auto. intros _. right. exists n. auto.
    + split.
      * exists []. rewrite app_nil_r. split; [auto|]. split; [intros []|auto].
      * split; [discriminate|]. intros [[]|[k [E C]]]. injection E as <-. lia.
  - assert (E : lg_err st' = lg_err st /\ stop = false).
    { destruct (lg_warn st) as [|w ws]; injection H as <- <-; split; auto.
      change (lg_err (fold_left (warn_line quiet) (w :: ws)
         (warn_line quiet st ("The following warnings were generated during the '" ++ cmd ++ "' processing")%string)) = lg_err st).
      rewrite repeat_err. apply report_warning. }
    destruct E as [E1 E2]. split.
    + exists []. rewrite app_nil_r. split; [auto|]. split; [intros []|auto].
    + rewrite E2. split; [discriminate|]. intros [[]|[n [C _]]]. discriminate.
  - injection H as <- <-. split.
    + exists []. rewrite app_nil_r. split; [auto|]. split; [intros []|auto].
    + split; [discriminate|]. intros [[]|[n [C _]]]. discriminate.
Qed.

Lemma run_spec : forall quiet ops st st' done stop, log_run quiet st ops = (st', done, stop) ->
  (exists more, lg_err st' = lg_err st ++ more
     /\ ((exists op, In op done /\ reports_error op) -> more <> [])
     /\ ((forall op, In op done -> ~ reports_error op) -> stop = false -> more = []))
  /\ (exists rest, ops = done ++ rest /\ (stop = false -> rest = [])).
Proof.
  intros quiet. induction ops as [|op ops IH]; intros st st' done stop H; cbn [log_run] in H.
  - injection H as <- <- <-. split.
    + exists []. rewrite app_nil_r. split; auto. split; auto. intros [op [[] _]].
    + exists []. auto.
  - destruct (log_step quiet st op) as [st1 s1] eqn:E. destruct (step_spec _ _ _ _ _ E) as [[m1 [M1 [M2 M3]]] _]. destruct s1.
    + injection H as <- <- <-. split.
      * exists m1. split; auto. split; [|discriminate]. intros [o [[<-|[]] R]]. auto.
      * exists ops. split; auto. discriminate.
    + destruct (log_run quiet st1 ops) as [[st2 dn] s2] eqn:R. injection H as <- <- <-. destruct (IH _ _ _ _ R) as [[m2 [N1 [N2 N3]]] [rest [Er Es]]]. split.
      * exists (m1 ++ m2). split; [rewrite N1, M1, app_assoc; auto|]. split.
        -- intros [o [[<-|Ho] Ro]]; intros C; apply app_eq_nil in C; destruct C as [C1 C2]; [apply M2; auto|apply N2; eauto].
        -- intros F S. rewrite M3, N3; auto; [intros o Ho; apply F; right; auto|apply F; left; auto].
      * exists rest. split; [rewrite Er; auto|auto].
Qed.

Lemma run_app : forall quiet a b st, log_run quiet st (a ++ b) =
  let '(st1, done, stop) := log_run quiet st a in
  if stop then (st1, done, true) else let '(st2, done2, s2) := log_run quiet st1 b in (st2, done ++ done2, s2).
Proof.
  intros quiet. induction a as [|op a IH]; intros b st.
  - cbn [app log_run]. destruct (log_run quiet st b) as [[s d] x]. auto.
  - cbn [app log_run]. destruct (log_step quiet st op) as [st1 s1]. destruct s1; auto. rewrite IH.
    destruct (log_run quiet st1 a) as [[st2 d2] s2]. destruct s2; auto. destruct (log_run quiet st2 b) as [[s3 d3] s4]. auto.
Qed.

(* Once an error was reported, nothing behind the next checkpoint is executed, whatever happens in between and
   however many errors the checkpoint tolerates from the time before. *)
Theorem error_stops_at_checkpoint : forall quiet st before op between max after st' done stop,
  reports_error op -> max <= length (lg_err st) ->
  log_run quiet st (before ++ op :: between ++ LCheck max :: after) = (st', done, stop) ->
  stop = true /\ exists rest, before ++ op :: between ++ [LCheck max] = done ++ rest.
Proof.
  intros quiet st before op between max after st' done stop R L H.
  assert (E : before ++ op :: between ++ LCheck max :: after = (before ++ op :: between) ++ LCheck max :: after) by (rewrite <- app_assoc; auto).
  rewrite E, run_app in H. destruct (log_run quiet st (before ++ op :: between)) as [[st1 d1] s1] eqn:R1.
  destruct (run_spec _ _ _ _ _ _ R1) as [[m1 [M1 [M2 _]]] [rest [Er Es]]].
  assert (E2 : before ++ op :: between ++ [LCheck max] = (before ++ op :: between) ++ [LCheck max]) by (rewrite <- app_assoc; auto).
  rewrite E2. destruct s1.
  - injection H as <- <- <-. split; auto. rewrite Er, <- app_assoc. eauto.
  - rewrite (Es eq_refl), app_nil_r in Er. assert (N : m1 <> []) by (apply M2; exists op; rewrite <- Er; split; [apply in_app_iff; right; left|]; auto).
    cbn [log_run log_step] in H. assert (T : Nat.ltb max (length (lg_err st1)) = true).
    { apply Nat.ltb_lt. rewrite M1, app_length. destruct m1; [congruence|]. cbn. lia. }
    rewrite T in H. injection H as <- <- <-. split; auto. exists []. rewrite app_nil_r, Er. auto.
Qed.

(* A program with default checkpoints ends prematurely exactly when it calls fatal, reports an error that requests
   an exit, or reports an error in front of a checkpoint. *)
Theorem stops_iff : forall quiet ops, (forall n, In (LCheck n) ops -> n = 0) ->
  (snd (log_run quiet log_empty ops) = true <->
   (exists op, In op ops /\ ends op) \/ exists a op b c, ops = a ++ op :: b ++ LCheck 0 :: c /\ reports_error op).
Proof.
  intros quiet ops Z. split.
  - intros H.
    assert (G : forall ops pre st, (forall n, In (LCheck n) ops -> n = 0) -> (lg_err st <> [] -> exists a op b, pre = a ++ op :: b /\ reports_error op) ->
      snd (log_run quiet st ops) = true -> (exists op, In op ops /\ ends op) \/ exists a op b c, pre ++ ops = a ++ op :: b ++ LCheck 0 :: c /\ reports_error op).
    { clear ops Z H. induction ops as [|op ops IH]; intros pre st Z P H; cbn [log_run] in H; [discriminate|].
      destruct (log_step quiet st op) as [st1 s1] eqn:E. destruct (step_spec _ _ _ _ _ E) as [[m1 [M1 [M2 M3]]] Hs]. destruct s1.
      - destruct (proj1 Hs eq_refl) as [En|[n [-> L]]]; [left; exists op; split; [left|]; auto|].
        right. destruct P as [a [o [b [-> Ro]]]]; [intros C; rewrite C in L; cbn in L; lia|].
        exists a, o, b, ops. rewrite (Z n (or_introl eq_refl)), <- app_assoc. auto.
      - destruct (log_run quiet st1 ops) as [[s d] x] eqn:R.
        destruct (IH (pre ++ [op]) st1) as [[o [Ho Eo]]|[a [o [b [c [Eq Ro]]]]]].
        + intros n Hn. apply Z. right. auto.
        + intros N. destruct (lg_err st) as [|e es] eqn:Es.
          * exists pre, op, []. split; auto. assert (Dc : reports_error op \/ ~ reports_error op).
            { destruct op; cbn [reports_error]; auto. destruct (string_dec category "Warning"); auto. }
            destruct Dc as [Dc|Dc]; auto. exfalso. apply N. rewrite M1. cbn [app]. apply M3; auto.
          * destruct P as [a [o [b [-> Ro]]]]; [discriminate|]. exists a, o, (b ++ [op]). rewrite <- app_assoc. auto.
        + rewrite R. exact H.
        + left. exists o. split; [right|]; auto.
        + right. exists a, o, b, c. rewrite <- app_assoc in Eq. auto. }
    apply (G ops [] log_empty Z); auto. intros C. exfalso. apply C. auto.
  - intros [[op [Ho En]]|[a [op [b [c [E Ro]]]]]].
    + apply in_split in Ho. destruct Ho as [a [b ->]]. rewrite run_app. destruct (log_run quiet log_empty a) as [[st1 d1] s1]. destruct s1; auto.
      cbn [log_run]. destruct (log_step quiet st1 op) as [st2 s2] eqn:E2. destruct (step_spec _ _ _ _ _ E2) as [_ Hs]. rewrite (proj2 Hs (or_introl En)). auto.
    + destruct (log_run quiet log_empty ops) as [[st1 d1] s1] eqn:R. rewrite E in R. apply error_stops_at_checkpoint in R; auto. destruct R as [-> _]. auto.
Qed.

(* A program that reaches its end behind a final checkpoint reported no error: a successful transformation has an
   empty error log. *)
Theorem completed_without_errors : forall quiet ops st' done, log_run quiet log_empty (ops ++ [LCheck 0]) = (st', done, false) ->
  lg_err st' = [] /\ forall op, In op ops -> ~ reports_error op.
Proof.
  intros quiet ops st' done H.
  assert (N : forall op, In op ops -> ~ reports_error op).
  { intros op Ho Ro. apply in_split in Ho. destruct Ho as [a [b ->]]. rewrite <- app_assoc in H. cbn [app] in H.
    apply error_stops_at_checkpoint in H; auto with arith. destruct H as [C _]. discriminate. }
  split; auto. destruct (run_spec _ _ _ _ _ _ H) as [[more [M1 [_ M3]]] [rest [Er Es]]]. rewrite M1. cbn [app log_empty lg_err]. apply M3; auto.
  rewrite (Es eq_refl), app_nil_r in Er. rewrite <- Er. intros op Ho. apply in_app_iff in Ho. destruct Ho as [Ho|[<-|[]]]; auto.
Qed.

(* Warnings change nothing but the warning log; without them the program behaves the same. *)
Theorem warnings_harmless : forall quiet st m t d h s x st' stop, log_step quiet st (LReport "Warning" m t d h s x) = (st', stop) ->
  stop = false /\ lg_err st' = lg_err st /\ (quiet = true -> st' = st)
  /\ (quiet = false -> lg_warn st' = lg_warn st ++ split newline (m ++ ": " ++ t)%string).
Proof.
  intros quiet st m t d h s x st' stop H. cbn [log_step] in H. pose proof (report_warning quiet st m t d h s x) as [R1 R2]. rewrite H in R1, R2. cbn [fst snd] in *.
  split; auto. split; auto. unfold report in H. change (is_warning "Warning") with true in H. destruct quiet; cbn [andb] in H.
  - injection H as <- _. split; auto. discriminate.
  - split; [discriminate|]. intros _. injection H as <- _. auto.
Qed.

(* Repeating warnings adds them to the warning log once more, so a second call repeats more than was reported. *)
Theorem repeat_warnings_refuted : exists st st', log_step false st (LRepeat "netlab up") = (st', false) /\ length (lg_warn st) = 2 /\ length (lg_warn st') = 5.
Proof. exists (mk_log [] ["a: x"; "b: y"] []). eexists. split; [reflexivity|]. split; reflexivity. Qed.

(* Creating output files: nothing is written after an error reported by the transformation or by an earlier output
   module. *)
Theorem outputs_after_errors : forall quiet before outs a w b st' done stop,
  outs = a ++ Some w :: b -> (exists op, In op before /\ reports_error op) \/ (exists w' op, In (Some w') a /\ In op w' /\ reports_error op) ->
  log_run quiet log_empty (create_run before outs) = (st', done, stop) ->
  stop = true /\ exists rest, before ++ [LCheck 0] ++ create_outputs a = done ++ rest.
Proof.
  intros quiet before outs a w b st' done stop -> Er H.
  assert (X : exists p op q r, reports_error op /\ before ++ [LCheck 0] ++ create_outputs a = p ++ op :: q ++ LCheck 0 :: r).
  { destruct Er as [[op [Ho Ro]]|[w' [op [Hw [Ho Ro]]]]].
    - apply in_split in Ho. destruct Ho as [p [q ->]]. exists p, op, q, (create_outputs a). split; auto. rewrite <- app_assoc. auto.
    - apply in_split in Hw. destruct Hw as [a1 [a2 ->]]. apply in_split in Ho. destruct Ho as [p [q ->]].
      exists (before ++ [LCheck 0] ++ create_outputs a1 ++ p), op, q, (create_outputs a2). split; auto.
      unfold create_outputs. rewrite flat_map_app. cbn [flat_map]. repeat (rewrite <- !app_assoc; cbn [app]). auto. }
  destruct X as [p [op [q [r [Ro E]]]]].
  assert (C : create_run before (a ++ Some w :: b) = (before ++ [LCheck 0] ++ create_outputs a) ++ create_outputs (Some w :: b)).
  { unfold create_run, create_outputs. rewrite flat_map_app, <- !app_assoc. auto. }
  rewrite C, E in H. rewrite <- app_assoc in H. cbn [app] in H. rewrite <- app_assoc in H. cbn [app] in H.
  apply error_stops_at_checkpoint in H; auto with arith. destruct H as [-> [rest Hr]]. split; auto.
  exists (rest ++ r). rewrite E. replace (p ++ op :: q ++ LCheck 0 :: r) with ((p ++ op :: q ++ [LCheck 0]) ++ r).
  - rewrite Hr, <- app_assoc. auto.
  - rewrite <- app_assoc. cbn [app]. rewrite <- app_assoc. auto.
Qed.

(* An unknown output format is reported, but the program goes on: the following output is written, and when it is the
   last one the program ends as if nothing had happened. *)
Theorem unknown_output_refuted :
  (exists outs st' done stop, log_run false log_empty (create_run [] outs) = (st', done, stop) /\ outs = [None; Some [LAct "write"]] /\ In (LAct "write") done)
  /\ (exists st' done, log_run false log_empty (create_run [] [None]) = (st', done, false) /\ lg_err st' <> []).
Proof.
  split.
  - exists [None; Some [LAct "write"]]. do 3 eexists. split; [reflexivity|]. split; auto. cbn. auto.
  - do 2 eexists. split; [reflexivity|]. discriminate.
Qed.

Example log_case :
  log_run false log_empty [LReport "Warning" "bgp" "odd" [] None [] true; LReport "MissingValue" "bgp" "no AS" [] (Some ["set bgp.as"; ""]) [] false; LAct "more"; LCheck 0; LAct "write"]
  = (mk_log ["MissingValue in bgp: no AS"; "... set bgp.as"; "Fatal error in netlab: Cannot proceed beyond this point due to errors, exiting"] ["bgp: odd"] [["set bgp.as"; ""]],
     [LReport "Warning" "bgp" "odd" [] None [] true; LReport "MissingValue" "bgp" "no AS" [] (Some ["set bgp.as"; ""]) [] false; LAct "more"; LCheck 0], true).
Proof. reflexivity. Qed.

Example log_ok_case : exists st', log_run false log_empty ([LAct "a"; LReport "Warning" "m" "w" [] None [] false] ++ [LCheck 0])
  = (st', [LAct "a"; LReport "Warning" "m" "w" [] None [] false; LCheck 0], false) /\ lg_warn st' = ["m: w"].
Proof. eexists. split; reflexivity. Qed.

Lemma step_hints : forall quiet st op h, In h (lg_hints st) -> In h (lg_hints (fst (log_step quiet st op))).
Proof.
  assert (R : forall quiet st c m t d hs s x h, In h (lg_hints st) -> In h (lg_hints (fst (report quiet st c m t d hs s x)))).
  { intros quiet st c m t d hs s x h H. unfold report. destruct (is_warning c && quiet)%bool; [exact H|]. cbn [fst lg_hints].
    destruct hs; [apply in_or_app|]; auto. }
  intros quiet st [c m t d hs s x|m t|n|cmd|w] h H; cbn [log_step].
  - apply R. exact H.
  - exact H.
  - destruct (Nat.ltb n (length (lg_err st))); exact H.
  - destruct (lg_warn st) as [|a l]; [exact H|]. cbn [fst].
    assert (G : forall l st, In h (lg_hints st) -> In h (lg_hints (fold_left (warn_line quiet) l st))).
    { induction l0 as [|b l0 IH]; intros st0 H0; [exact H0|]. cbn [fold_left]. apply IH. apply R. exact H0. }
    apply G. apply R. exact H.
  - exact H.
Qed.

Lemma run_hints : forall quiet ops st st' done stop h, log_run quiet st ops = (st', done, stop) -> In h (lg_hints st) -> In h (lg_hints st').
Proof.
  intros quiet. induction ops as [|op ops IH]; intros st st' done stop h H I; cbn [log_run] in H.
  - injection H as <- _ _. exact I.
  - pose proof (step_hints quiet st op h I) as I1. destruct (log_step quiet st op) as [st1 s1]. cbn [fst] in I1. destruct s1.
    + injection H as <- _ _. exact I1.
    + destruct (log_run quiet st1 ops) as [[st2 d] s] eqn:R. injection H as <- _ _. eauto.
Qed.

(* Hints are printed once: a hint given with an error or a visible warning adds nothing to later errors. *)
Theorem hint_printed_once : forall quiet st ops st' done stop c m t d s x h,
  log_run quiet st ops = (st', done, stop) -> In (LReport c m t d (Some h) s x) done -> c <> "Warning" \/ quiet = false ->
  forall c' m' t' d' s' x',
  lg_err (fst (log_step quiet st' (LReport c' m' t' d' (Some h) s' x'))) = lg_err (fst (log_step quiet st' (LReport c' m' t' d' None s' x'))).
Proof.
  intros quiet st ops st' done stop c m t d s x h H I V c' m' t' d' s' x'.
  assert (C : In h (lg_hints st')).
  { revert st st' done stop H I. induction ops as [|op ops IH]; intros st st' done stop H I; cbn [log_run] in H.
    - injection H as _ <- _. destruct I.
    - assert (F : op = LReport c m t d (Some h) s x -> In h (lg_hints (fst (log_step quiet st op)))).
      { intros ->. cbn [log_step]. unfold report.
        assert (W : (is_warning c && quiet)%bool = false).
        { destruct V as [V| ->]; [|apply andb_false_r]. unfold is_warning. apply andb_false_iff. left. apply String.eqb_neq. exact V. }
        rewrite W. cbn [fst lg_hints]. apply in_or_app. right. left. reflexivity. }
      destruct (log_step quiet st op) as [st1 s1] eqn:S. cbn [fst] in F. destruct s1.
      + injection H as <- <- _. destruct I as [E|[]]. auto.
      + destruct (log_run quiet st1 ops) as [[st2 d2] s2] eqn:R. injection H as <- <- _. destruct I as [E|I].
        * eapply run_hints; eauto.
        * eapply IH; eauto. }
  cbn [log_step]. unfold report. destruct (is_warning c' && quiet)%bool; [reflexivity|]. cbn [fst lg_err].
  assert (X : existsb (lines_eqb h) (lg_hints st') = true).
  { apply existsb_exists. exists h. split; [exact C|]. unfold lines_eqb. destruct (list_eq_dec string_dec h h); congruence. }
  rewrite X. reflexivity.
Qed.

(* and the first time it is printed *)
Theorem hint_printed : forall quiet st c m t d s x h, c <> "Warning" -> ~ In h (lg_hints st) ->
  exists a b, lg_err (fst (log_step quiet st (LReport c m t d (Some h) s x))) = a ++ map (fun l => ("... " ++ l)%string) (filter (fun l => negb (String.eqb l EmptyString)) h) ++ b
    /\ lg_err (fst (log_step quiet st (LReport c m t d None s x))) = a ++ b /\ length (lg_err st) < length a.
Proof.
  intros quiet st c m t d s x h N NI. cbn [log_step]. unfold report.
  assert (W : is_warning c = false) by (apply String.eqb_neq; exact N). rewrite W. cbn [andb fst lg_err].
  assert (X : existsb (lines_eqb h) (lg_hints st) = false).
  { destruct (existsb (lines_eqb h) (lg_hints st)) eqn:Y; auto. apply existsb_exists in Y. destruct Y as [y [Y1 Y2]].
    unfold lines_eqb in Y2. destruct (list_eq_dec string_dec h y) as [E|]; [|discriminate]. rewrite E in NI. contradiction. }
  rewrite X. exists ((lg_err st ++ split newline (err_line c m t)) ++ hint_lines false d), s. cbn [hint_lines].
  split; [rewrite <- !app_assoc; reflexivity|]. split; [reflexivity|].
  rewrite !app_length.
  assert (P : length (split newline (err_line c m t)) <> 0).
  { destruct (split newline (err_line c m t)) eqn:S; [|discriminate]. exfalso. revert S.
    generalize (err_line c m t). intros [|q l]; cbn [split]; [discriminate|]. destruct (Ascii.eqb q newline); [discriminate|]. destruct (split newline l); discriminate. }
  lia.
Qed.

Example hint_case :
  exists st, log_run false log_empty [LReport "MissingValue" "bgp" "no AS" [] (Some ["set bgp.as"]) [] false] = (st, [LReport "MissingValue" "bgp" "no AS" [] (Some ["set bgp.as"]) [] false], false)
  /\ lg_err (fst (log_step false st (LReport "MissingValue" "bgp" "no AS on r2" [] (Some ["set bgp.as"]) [] false)))
     = ["MissingValue in bgp: no AS"; "... set bgp.as"; "MissingValue in bgp: no AS on r2"].
Proof. eexists. split; reflexivity. Qed.

Print Assumptions error_stops_at_checkpoint.
Print Assumptions stops_iff.
Print Assumptions completed_without_errors.
Print Assumptions warnings_harmless.
Print Assumptions repeat_warnings_refuted.
Print Assumptions outputs_after_errors.
Print Assumptions unknown_output_refuted.
Print Assumptions hint_printed_once.
Print Assumptions hint_printed.
