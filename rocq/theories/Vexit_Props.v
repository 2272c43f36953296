(* Validation tests: SuzieQ records, results of the tests and the exit code of netlab validate. *)
From Coq Require Import String Ascii ZArith Lia Bool List.
From Verif Require Import Base Vlink_Model Vtest_Model Vtest_Props Vretry_Props.
Import ListNotations.
Local Open Scope nat_scope.
Local Open Scope string_scope.
Local Open Scope list_scope.

(* ---- SuzieQ records ---- *)

Definition ev_true (x : ev) : bool := match x with EvTrue => true | _ => false end.
Definition ev_false (x : ev) : bool := match x with EvFalse => true | _ => false end.

Lemma sq_records_exact : forall e d all l report acc c ok c',
  v_valid e <> None -> usable d (v_valid e) = true -> ~ In EvEmpty l ->
  sq_records e d all l report (Some acc) c = (ok, c') ->
  ok = Some (if all then acc && forallb ev_true l else acc || existsb ev_true l) /\
  n_passed c' = n_passed c /\ n_skip c' = n_skip c /\
  n_failed c' + n_warning c' = n_failed c + n_warning c + (if report then length (filter ev_false l) else 0).
Proof.
  intros e d all l report. induction l as [|x r IH]; intros acc c ok c' V U NE H; cbn [sq_records] in H.
  - inversion H; subst. cbn. split; [destruct all, acc; reflexivity|]. split; [reflexivity|]. split; [reflexivity|]. destruct report; lia.
  - unfold eval_expr in H. rewrite expr_usable in H by exact V. rewrite U in H.
    assert (NX : x <> EvEmpty) by (intros E; apply NE; now left).
    assert (NR : ~ In EvEmpty r) by (intros E; apply NE; now right).
    destruct x; [congruence| |].
    + apply IH in H; auto. destruct H as [H1 [H2 [H3 H4]]]. split; [|cbn; auto].
      rewrite H1. cbn. destruct all, acc; cbn; try reflexivity.
    + apply IH in H; auto. destruct H as [H1 [H2 [H3 H4]]]. split.
      * rewrite H1. cbn. destruct all, acc; cbn; try reflexivity.
      * destruct report; [|cbn in *; auto]. unfold fail1 in *. cbn [filter ev_false length].
        destruct (v_warn e); cbn in *; repeat split; auto; lia.
Qed.

(* a test on the records passes when any or all of them pass; failed records are counted one by one *)
Theorem suzieq_records : forall e d all o report c ok c' l,
  v_valid e <> None -> usable d (v_valid e) = true -> o_sq o = QList l -> l <> [] -> ~ In EvEmpty l ->
  sq_validation e d all o report c = (ok, c') ->
  ok = Some (if all then forallb ev_true l else existsb ev_true l) /\
  n_passed c' = n_passed c + (if match ok with Some true => true | _ => false end then 1 else 0) /\
  n_skip c' = n_skip c /\
  n_failed c' + n_warning c' = n_failed c + n_warning c +
    (if report then length (filter ev_false l) + (if match ok with Some true => true | _ => false end then 0 else 1) else 0).
Proof.
  intros e d all o report c ok c' l V U Q L NE H. unfold sq_validation in H. rewrite Q in H.
  destruct l as [|x r]; [now destruct L|]. cbn [sq_records] in H.
  assert (NX : x <> EvEmpty) by (intros E; apply NE; now left).
  assert (NR : ~ In EvEmpty r) by (intros E; apply NE; now right).
  assert (E : eval_expr e d x report false c =
              (Some (ev_true x), if ev_true x then c else if report then fail1 e c else c)).
  { unfold eval_expr. rewrite expr_usable by exact V. rewrite U. destruct x; [congruence|reflexivity|reflexivity]. }
  rewrite E in H. set (c1 := if ev_true x then c else if report then fail1 e c else c) in *.
  assert (C1 : n_passed c1 = n_passed c /\ n_skip c1 = n_skip c /\
               n_failed c1 + n_warning c1 = n_failed c + n_warning c + (if report then (if ev_true x then 0 else 1) else 0)).
  { unfold c1, fail1. destruct (ev_true x), report, (v_warn e); cbn; repeat split; lia. }
  destruct C1 as [C1 [C2 C3]].
  destruct (sq_records e d all r report (Some (ev_true x)) c1) as [k c2] eqn:S.
  apply sq_records_exact in S; auto. destruct S as [S1 [S2 [S3 S4]]].
  assert (R : (if all then ev_true x && forallb ev_true r else ev_true x || existsb ev_true r) =
              (if all then forallb ev_true (x :: r) else existsb ev_true (x :: r))) by (destruct all; reflexivity).
  rewrite R in S1. clear R.
  assert (F : length (filter ev_false (x :: r)) = (if ev_true x then 0 else 1) + length (filter ev_false r)).
  { destruct x; [congruence|reflexivity|reflexivity]. }
  set (res := if all then forallb ev_true (x :: r) else existsb ev_true (x :: r)) in *.
  rewrite F. clear F. subst k. destruct res.
  - inversion H; subst ok c'. split; [reflexivity|]. unfold pass1. cbn. repeat split; try lia. destruct report; lia.
  - inversion H; subst ok c'. split; [reflexivity|]. destruct report; [|repeat split; lia].
    unfold fail1. destruct (v_warn e); cbn; repeat split; lia.
Qed.

(* ---- failures are counted only for failed tests, except for SuzieQ records ---- *)

Definition simple (e : vtest) : Prop := v_suzieq e = None \/ v_valid e = None.

Definition same_fails (c c' : vcnt) : Prop := n_failed c' = n_failed c /\ n_warning c' = n_warning c.

Section Run.
Variable dev : string -> string.
Variable pact : string -> option bool.
Variable W : nat -> obs.
Notation NV := (node_validation dev pact).
Notation OP := (one_pass dev pact W).
Notation RT := (retry dev pact W).
Notation ET := (exec_test dev pact W).
Notation RUN := (run_tests dev pact W).

Lemma same_pass : forall c, same_fails c (pass1 c).
Proof. intros c. split; reflexivity. Qed.
Lemma same_skip : forall c, same_fails c (skip1 c).
Proof. intros c. split; reflexivity. Qed.
Lemma same_refl : forall c, same_fails c c.
Proof. intros c. split; reflexivity. Qed.
Lemma same_trans : forall a b c, same_fails a b -> same_fails b c -> same_fails a c.
Proof. intros a b c [A B] [C D]. split; congruence. Qed.

Lemma attempt_quiet : forall e n report o c done ok c',
  simple e -> NV e n report o c = ((done, ok), c') -> ok <> Some false -> same_fails c c'.
Proof.
  intros e n report o c done ok c' SM H N. unfold node_validation in H.
  assert (CR : forall a k, (a = ASuzieq -> v_suzieq e <> None) ->
               check_results e (dev n) o a k report c = ((done, ok), c') -> same_fails c c').
  { intros a k AS E. unfold check_results in E.
    set (X := if _ && given (v_valid e) then _ else _) in E.
    assert (B : forall k1 c1, X = (k1, c1) -> k1 <> Some false \/ report = false -> same_fails c c1).
    { assert (EV : forall x s k1 c1, eval_expr e (dev n) x report s c = (k1, c1) -> k1 <> Some false \/ report = false -> same_fails c c1).
      { intros x s k1 c1 EX. unfold eval_expr in EX. destruct (expr e (dev n) x); inversion EX; subst; intros Q.
        - apply same_skip.
        - destruct s; [apply same_pass|apply same_refl].
        - destruct Q as [Q|Q]; [congruence|]. rewrite Q. apply same_refl. }
      intros k1 c1 EX. unfold X in EX.
      destruct (match k with Some false => false | _ => true end && given (v_valid e)) eqn:G.
      - apply andb_true_iff in G. destruct G as [_ G]. apply given_true in G. destruct SM as [SM|SM]; [|congruence]. rewrite SM in *.
        destruct a; exact (EV _ _ _ _ EX).
      - destruct (v_plugin e).
        + unfold plugin_validation in EX. destruct (o_pl o); inversion EX; subst; intros Q.
          * apply same_pass.
          * destruct Q as [Q|Q]; [congruence|]. rewrite Q. apply same_refl.
          * apply same_refl.
          * apply same_skip.
        + inversion EX; subst. intros _. apply same_refl. }
    destruct X as [k1 c1]. specialize (B k1 c1 eq_refl).
    destruct k1 as [[|]|].
    - inversion E; subst. apply B. left. congruence.
    - destruct report; inversion E; subst; [congruence|]. apply B. now right.
    - inversion E; subst. apply B. left. congruence. }
  destruct (find_test_action pact e (dev n)) as [[| | | |]|] eqn:FA.
  - destruct (o_show o); [apply (CR AShow None) in H; [exact H|congruence]|inversion H; subst; congruence].
  - destruct (negb (o_exec o) && report); [inversion H; subst; congruence|apply (CR AExec None) in H; [exact H|congruence]].
  - apply (CR AConfig None) in H; [exact H|congruence].
  - destruct (negb _ && report); [inversion H; subst; congruence|].
    apply (CR ASuzieq) in H; [exact H|]. intros _. unfold find_test_action in FA.
    destruct (usable (dev n) (v_show e)); [discriminate FA|]. destruct (usable (dev n) (v_exec e)); [discriminate FA|].
    destruct (v_config e); [discriminate FA|]. destruct (v_suzieq e); [congruence|]. cbn in FA.
    destruct (v_plugin e); [destruct (pact (dev n)) as [[|]|]; discriminate FA|].
    destruct (given (v_wait e) && _ && _); discriminate FA.
  - inversion H; subst. apply same_refl.
  - inversion H; subst. apply same_skip.
Qed.

Lemma one_pass_quiet : forall e stop l rem ret k c rem2 ret2 tr k2 c2,
  simple e -> OP e stop l rem ret k c = (rem2, ret2, tr, k2, c2) ->
  (forall a, In a tr -> a_ok a <> Some false) -> same_fails c c2.
Proof.
  intros e stop. induction l as [|n r IH]; intros rem ret k c rem2 ret2 tr k2 c2 SM H A; cbn [one_pass] in H.
  - inversion H; subst. apply same_refl.
  - destruct (NV e n (Z.leb stop (o_time (W k))) (W k) c) as [[proc ok] c1] eqn:N.
    destruct (OP e stop r (if proc then filter (fun x => negb (String.eqb x n)) rem else rem)
                (match ok, ret with Some true, None => Some true | Some false, _ => Some false | _, _ => ret end) (S k) c1)
      as [[[[r2 t2] tr2] k3] c3] eqn:P.
    inversion H; subst rem2 ret2 tr k2 c2. apply (same_trans _ c1).
    + eapply attempt_quiet; eauto. apply (A (mk_att n k (Z.leb stop (o_time (W k))) proc ok)). now left.
    + eapply IH; eauto. intros a I. apply A. now right.
Qed.

Lemma retry_quiet : forall fuel e stop rem ret k c r tr k2 c2,
  simple e -> RT fuel e stop rem ret k c = Some (r, tr, k2, c2) ->
  (forall a, In a tr -> a_ok a <> Some false) -> same_fails c c2.
Proof.
  induction fuel as [|f IH]; intros e stop rem ret k c r tr k2 c2 SM H A; cbn [retry] in H.
  - destruct rem; [|discriminate H]. inversion H; subst. apply same_refl.
  - destruct rem as [|n0 nr] eqn:RM; [inversion H; subst; apply same_refl|]. rewrite <- RM in *.
    destruct (OP e stop rem rem ret k c) as [[[[rem1 ret1] tr1] k1] c1] eqn:P.
    destruct (RT f e stop rem1 ret1 k1 c1) as [[[[r3 tr3] k3] c3]|] eqn:R; [|discriminate H]. inversion H; subst r3 tr k3 c3.
    apply (same_trans _ c1).
    + eapply one_pass_quiet; eauto. intros a I. apply A, in_or_app. now left.
    + eapply IH; eauto. intros a I. apply A, in_or_app. now right.
Qed.

(* ---- one test ---- *)

Lemma exec_test_facts : forall fuel nowait e start k c t tr sl k2 c2,
  NoDup (nodes_of e) -> ET fuel nowait e start k c = Some (t, tr, sl, k2, c2) ->
  match t with
  | TExit => c2 = c /\ n_failed c <> 0 /\ v_stop e = true /\ nodes_of e = [] /\ v_wait e <> None
  | TRes r => okc e r c c2 /\ (simple e -> r <> Some false -> same_fails c c2)
  end.
Proof.
  intros fuel nowait e start k c t tr sl k2 c2 ND H. unfold exec_test in H.
  destruct (nodes_of e) as [|n0 nr] eqn:NN.
  - destruct (v_wait e) as [w|] eqn:VW.
    + destruct (v_stop e && negb (n_failed c =? 0)%nat) eqn:B.
      * inversion H; subst. apply andb_true_iff in B. destruct B as [B1 B2]. apply negb_true_iff, Nat.eqb_neq in B2. repeat split; auto. congruence.
      * destruct (nowait || Z.eqb w 0); inversion H; subst; (split; [apply okc_same; congruence|intros; apply same_refl]).
    + inversion H; subst. split; [apply okc_skip; congruence|intros; apply same_skip].
  - destruct (v_config e).
    + destruct (o_config (W k)); inversion H; subst.
      * split; [apply okc_pass; congruence|intros; apply same_pass].
      * split; [apply okc_fail|intros; congruence].
    + rewrite <- NN in *. set (stop := (_ + _)%Z) in H.
      destruct (RT fuel e stop (nodes_of e) None (S k) c) as [[[[r tr1] k3] c3]|] eqn:R; [|destruct (v_wait e); discriminate H].
      assert (HH : t = TRes r /\ c2 = c3) by (destruct (v_wait e); inversion H; auto). destruct HH as [-> ->].
      pose proof (test_result _ _ _ _ _ _ _ _ _ _ _ _ _ ND R) as [T1 [T2 T3]].
      pose proof (retry_facts _ _ _ _ _ _ _ _ _ _ _ _ _ _ R ND) as [_ [_ [_ [_ [O _]]]]].
      split.
      * destruct (existsb (fun a => match a_ok a with Some false => true | _ => false end) tr1) eqn:X.
        -- assert (E : r = Some false).
           { apply T1. apply existsb_exists in X. destruct X as [a [A1 A2]]. exists a. split; [exact A1|]. destruct (a_ok a) as [[|]|]; congruence. }
           rewrite E. exact O.
        -- assert (E : r <> Some false).
           { intros E. apply T1 in E. destruct E as [a [A1 A2]].
             assert (Y : existsb (fun a => match a_ok a with Some false => true | _ => false end) tr1 = true) by (apply existsb_exists; exists a; now rewrite A2). congruence. }
           destruct O as [O1 [O2 [O3 [O4 _]]]]. unfold okc. repeat (split; [assumption|]). congruence.
      * intros SM NF. eapply retry_quiet; eauto. intros a I E. apply NF, T1. exists a. auto.
Qed.

Lemma extend_same : forall ws e,
  v_name (extend_device ws e) = v_name e /\ nodes_of (extend_device ws e) = nodes_of e /\
  v_stop (extend_device ws e) = v_stop e /\ v_warn (extend_device ws e) = v_warn e /\
  v_suzieq (extend_device ws e) = v_suzieq e /\ v_valid (extend_device ws e) = v_valid e.
Proof.
  intros ws e. unfold extend_device. generalize (ws (v_name e)). intros l. revert e. induction l as [|w r IH]; intros e; cbn [fold_left].
  - auto 10.
  - destruct (Z.ltb _ w); [|apply IH]. destruct (IH (set_wait e w)) as [A [B [C [D [E F]]]]]. repeat split; assumption.
Qed.

(* ---- all tests ---- *)

(* executed tests with their results *)
Definition done_with (l : list vtest) (rs : list (string * option bool)) (e : vtest) (r : option bool) : Prop :=
  exists i, nth_error l i = Some e /\ nth_error rs i = Some (v_name e, r).

Lemma done_0 : forall e r l rs, done_with (e :: l) ((v_name e, r) :: rs) e r.
Proof. intros. exists 0. auto. Qed.
Lemma done_S : forall x y l rs e r, done_with l rs e r -> done_with (x :: l) (y :: rs) e r.
Proof. intros x y l rs e r [i [A B]]. exists (S i). auto. Qed.
Lemma done_inv : forall x y l rs e r, done_with (x :: l) (y :: rs) e r -> (e = x /\ y = (v_name e, r)) \/ done_with l rs e r.
Proof. intros x y l rs e r [[|i] [A B]]; cbn in A, B; [left; split; congruence|right; exists i; auto]. Qed.

Definition stopper (e : vtest) (r : option bool) : Prop := r = Some false /\ v_stop e = true.

Lemma run_facts : forall fuel nowait ws l start k c x rs c2,
  (forall e, In e l -> NoDup (nodes_of e)) ->
  RUN fuel nowait ws l start k c = Some (x, rs, c2) ->
  n_failed c <= n_failed c2 /\ n_warning c <= n_warning c2 /\
  (forall e r, done_with l rs e r -> r = Some false ->
     (v_warn e = false -> n_failed c < n_failed c2) /\ (v_warn e = true -> n_warning c < n_warning c2)) /\
  (x = exit_code c2 /\ map fst rs = map v_name l /\ (forall e r, done_with l rs e r -> ~ stopper e r) \/
   x = 1%Z /\ n_failed c2 <> 0 /\ (exists pre e post, l = pre ++ e :: post /\ map fst rs = map v_name pre /\ nodes_of e = [] /\ v_stop e = true) \/
   x = 1%Z /\ exists pre e post rs1, l = pre ++ e :: post /\ rs = rs1 ++ [(v_name e, Some false)] /\ map fst rs1 = map v_name pre /\ v_stop e = true) /\
  ((forall e, In e l -> simple e) ->
     (n_failed c < n_failed c2 -> exists e, done_with l rs e (Some false) /\ v_warn e = false) /\
     (n_warning c < n_warning c2 -> exists e, done_with l rs e (Some false) /\ v_warn e = true)).
Proof.
  intros fuel nowait ws l. induction l as [|e0 l IH]; intros start k c x rs c2 ND H; cbn [run_tests] in H.
  - inversion H; subst. split; [lia|]. split; [lia|]. split; [intros e r [[|i] [A _]]; discriminate A|].
    split; [left; split; [reflexivity|split; [reflexivity|intros e r [[|i] [A _]]; discriminate A]]|]. intros _. split; lia.
  - destruct (extend_same ws e0) as [X1 [X2 [X3 [X4 [X5 X6]]]]]. set (e := extend_device ws e0) in *.
    assert (NE : NoDup (nodes_of e)) by (rewrite X2; apply ND; now left).
    assert (NL : forall e, In e l -> NoDup (nodes_of e)) by (intros y Y; apply ND; now right).
    destruct (ET fuel nowait e start k c) as [[[[[t tr] sl] k1] c1]|] eqn:T; [|discriminate H].
    apply exec_test_facts in T; [|exact NE]. destruct t as [|res].
    + inversion H; subst x rs c2. destruct T as [T1 [T2 [T3 [T4 T5]]]]. subst c1. split; [lia|]. split; [lia|].
      split; [intros y r [[|i] [_ A]]; discriminate A|]. split.
      * right. left. split; [reflexivity|]. split; [exact T2|]. exists [], e0, l. split; [reflexivity|]. split; [reflexivity|]. split; congruence.
      * intros _. split; lia.
    + destruct T as [[[T1 [T2 [T3 T4]]] [T5 [T6 [T7 T8]]]] T9].
      destruct (match res with Some false => v_stop e | _ => false end) eqn:ST.
      * inversion H; subst x rs c2. assert (RF : res = Some false) by (destruct res as [[|]|]; [discriminate ST|reflexivity|discriminate ST]).
        rewrite RF in *. specialize (T8 eq_refl). rewrite X4 in *. split; [lia|]. split; [lia|]. split.
        -- intros y r D R. destruct D as [[|[|i]] [A B]]; cbn in A, B; try discriminate B. inversion A; subst y. split; intros V; [specialize (T7 V)|specialize (T6 V)]; lia.
        -- split.
           ++ right. right. split; [reflexivity|]. exists [], e0, l, []. rewrite X1. cbn. split; [reflexivity|]. split; [reflexivity|]. split; [reflexivity|congruence].
           ++ intros _. split; intros G; (exists e0; split; [exists 0; cbn; rewrite X1; auto|]); destruct (v_warn e0); try reflexivity; exfalso;
              [specialize (T6 eq_refl)|specialize (T7 eq_refl)]; lia.
      * destruct (match v_wait e with Some _ => (Some (o_time (W k1)), S k1) | None => (start, k1) end) as [start1 k2].
        destruct (RUN fuel nowait ws l start1 k2 c1) as [[[y rs2] c3]|] eqn:R; [|discriminate H].
        inversion H; subst x rs c2. clear H. apply IH in R; [|exact NL]. destruct R as [R1 [R2 [R3 [R4 R5]]]].
        split; [lia|]. split; [lia|]. rewrite X4 in *. split; [|split].
        -- intros z r D F. rewrite X1 in D. apply done_inv in D. destruct D as [[D1 D2]|D].
           ++ subst z. assert (E : res = Some false) by congruence. specialize (T8 E). split; intros V; [specialize (T7 V)|specialize (T6 V)]; lia.
           ++ destruct (R3 z r D F) as [P Q]. split; intros V; [specialize (P V)|specialize (Q V)]; lia.
        -- destruct R4 as [[A [B C]]|[[A [F B]]|[A B]]].
           ++ left. split; [exact A|]. split; [cbn; rewrite X1, B; reflexivity|]. intros z r D S. rewrite X1 in D. apply done_inv in D. destruct D as [[D1 D2]|D].
              ** subst z. destruct S as [S1 S2]. assert (E : res = Some false) by congruence. rewrite E in ST. rewrite X3 in ST. congruence.
              ** now apply (C z r D).
           ++ right. left. split; [exact A|]. split; [exact F|]. destruct B as [pre [z [post [B1 [B2 B3]]]]]. exists (e0 :: pre), z, post. rewrite B1. cbn. rewrite X1, B2. auto.
           ++ right. right. split; [exact A|]. destruct B as [pre [z [post [rs1 [B1 [B2 [B3 B4]]]]]]]. exists (e0 :: pre), z, post, ((v_name e, res) :: rs1).
              rewrite B1, B2. cbn. rewrite X1, B3. auto.
        -- intros SM. assert (SE : simple e) by (unfold simple; rewrite X5, X6; apply SM; now left).
           destruct R5 as [P Q]; [intros z Z; apply SM; now right|]. rewrite X1. split; intros G.
           ++ destruct (Nat.ltb_spec (n_failed c1) (n_failed c3)) as [L|L].
              ** destruct (P L) as [z [D V]]. exists z. split; [now apply done_S|exact V].
              ** exists e0. assert (E : res = Some false).
                 { destruct res as [[|]|]; [|reflexivity|]; exfalso; (destruct (T9 SE) as [F1 F2]; [congruence|lia]). }
                 subst res. split; [apply done_0|]. destruct (v_warn e0); [|reflexivity]. specialize (T6 eq_refl). lia.
           ++ destruct (Nat.ltb_spec (n_warning c1) (n_warning c3)) as [L|L].
              ** destruct (Q L) as [z [D V]]. exists z. split; [now apply done_S|exact V].
              ** exists e0. assert (E : res = Some false).
                 { destruct res as [[|]|]; [|reflexivity|]; exfalso; (destruct (T9 SE) as [F1 F2]; [congruence|lia]). }
                 subst res. split; [apply done_0|]. destruct (v_warn e0); [reflexivity|]. specialize (T7 eq_refl). lia.
Qed.

(* exit code 0: all tests were executed and none of them failed *)
Theorem exit_zero : forall fuel nowait ws l start k rs c2,
  (forall e, In e l -> NoDup (nodes_of e)) ->
  RUN fuel nowait ws l start k cnt0 = Some (0%Z, rs, c2) ->
  map fst rs = map v_name l /\ (forall t r, In (t, r) rs -> r <> Some false) /\ n_failed c2 = 0 /\ n_warning c2 = 0.
Proof.
  intros fuel nowait ws l start k rs c2 ND H. apply run_facts in H; [|exact ND]. destruct H as [_ [_ [H3 [H4 _]]]].
  destruct H4 as [[A [B C]]|[[A _]|[A _]]]; try discriminate A.
  assert (F : n_failed c2 = 0 /\ n_warning c2 = 0).
  { unfold exit_code in A. destruct (n_failed c2 =? 0)%nat eqn:E1, (n_warning c2 =? 0)%nat eqn:E2; cbn in A; try discriminate A.
    apply Nat.eqb_eq in E1, E2. auto. }
  split; [exact B|]. split; [|exact F]. intros t r I E. subst r. apply In_nth_error in I. destruct I as [i I].
  assert (D : exists e, nth_error l i = Some e /\ v_name e = t).
  { assert (M : nth_error (map v_name l) i = Some t) by (rewrite <- B, nth_error_map, I; reflexivity).
    rewrite nth_error_map in M. destruct (nth_error l i) as [e|]; [|discriminate M]. exists e. cbn in M. split; congruence. }
  destruct D as [e [D1 D2]]. destruct (H3 e (Some false)) as [P Q].
  { exists i. rewrite D2. auto. }
  { reflexivity. }
  destruct F as [F1 F2]. destruct (v_warn e); [specialize (Q eq_refl)|specialize (P eq_refl)]; cbn in *; lia.
Qed.

(* tests without expressions on SuzieQ records: the exit code tells which tests failed *)
Theorem exit_code_exact : forall fuel nowait ws l start k x rs c2,
  (forall e, In e l -> NoDup (nodes_of e)) -> (forall e, In e l -> simple e) ->
  RUN fuel nowait ws l start k cnt0 = Some (x, rs, c2) ->
  (x = 0%Z <-> forall e r, done_with l rs e r -> r <> Some false) /\
  (x = 1%Z <-> exists e, done_with l rs e (Some false) /\ (v_warn e = false \/ v_stop e = true)) /\
  (x = 3%Z <-> (exists e, done_with l rs e (Some false)) /\
               forall e, done_with l rs e (Some false) -> v_warn e = true /\ v_stop e = false).
Proof.
  intros fuel nowait ws l start k x rs c2 ND SM H. apply run_facts in H; [|exact ND]. destruct H as [_ [_ [H3 [H4 H5]]]].
  destruct (H5 SM) as [P Q]. cbn [n_failed n_warning cnt0] in *.
  assert (ONE : forall e, done_with l rs e (Some false) -> v_warn e = false \/ v_stop e = true -> x = 1%Z -> 
    (x = 0%Z <-> forall e r, done_with l rs e r -> r <> Some false) /\
    (x = 1%Z <-> exists e, done_with l rs e (Some false) /\ (v_warn e = false \/ v_stop e = true)) /\
    (x = 3%Z <-> (exists e, done_with l rs e (Some false)) /\
               forall e, done_with l rs e (Some false) -> v_warn e = true /\ v_stop e = false)).
  { intros e D V E. subst x. split; [|split].
    - split; [discriminate|]. intros F. now destruct (F e (Some false) D).
    - split; [intros _; exists e; auto|reflexivity].
    - split; [discriminate|]. intros [_ F]. destruct (F e D) as [F1 F2]. destruct V; congruence. }
  destruct H4 as [[A [B C]]|[[A [F B]]|[A B]]].
  - subst x. unfold exit_code. destruct (n_failed c2 =? 0)%nat eqn:E1.
    + apply Nat.eqb_eq in E1. assert (NF : forall e, done_with l rs e (Some false) -> v_warn e = true).
      { intros e D. destruct (v_warn e) eqn:V; [reflexivity|]. destruct (H3 e _ D eq_refl) as [G _]. specialize (G V). lia. }
      destruct (n_warning c2 =? 0)%nat eqn:E2; cbn [andb negb].
      * apply Nat.eqb_eq in E2. assert (NO : forall e r, done_with l rs e r -> r <> Some false).
        { intros e r D E. subst r. destruct (H3 e _ D eq_refl) as [_ G]. specialize (G (NF e D)). lia. }
        split; [split; [intros _; exact NO|reflexivity]|]. split.
        -- split; [discriminate|]. intros [e [D _]]. now destruct (NO e (Some false) D).
        -- split; [discriminate|]. intros [[e D] _]. now destruct (NO e (Some false) D).
      * apply Nat.eqb_neq in E2. destruct Q as [e [D V]]; [lia|]. split; [|split].
        -- split; [discriminate|]. intros G. now destruct (G e (Some false) D).
        -- split; [discriminate|]. intros [y [Y [Z|Z]]]; [rewrite (NF y Y) in Z; discriminate Z|]. exfalso. apply (C y (Some false) Y). now split.
        -- split; [intros _|reflexivity]. split; [exists e; exact D|]. intros y Y. split; [now apply NF|].
           destruct (v_stop y) eqn:Z; [|reflexivity]. exfalso. apply (C y (Some false) Y). now split.
    + cbn [andb negb]. apply Nat.eqb_neq in E1. destruct P as [e [D V]]; [lia|].
      assert (X : exit_code c2 = 1%Z) by (unfold exit_code; apply Nat.eqb_neq in E1; rewrite E1; reflexivity).
      rewrite X in ONE. apply (ONE e D); auto.
  - destruct P as [e [D V]]; [lia|]. apply (ONE e D); auto.
  - destruct B as [pre [e [post [rs1 [B1 [B2 [B3 B4]]]]]]]. apply (ONE e); auto.
    exists (length pre). split; [rewrite B1, nth_error_app2, Nat.sub_diag by lia; reflexivity|].
    assert (L : length rs1 = length pre) by (rewrite <- (map_length fst rs1), B3; apply map_length).
    rewrite B2, nth_error_app2, L, Nat.sub_diag by lia. reflexivity.
Qed.

(* a failed test with stop_on_error is the last executed test *)
Theorem stop_on_error_stops : forall fuel nowait ws l start k c x rs c2 e,
  (forall e, In e l -> NoDup (nodes_of e)) ->
  RUN fuel nowait ws l start k c = Some (x, rs, c2) ->
  forall i, nth_error l i = Some e -> nth_error rs i = Some (v_name e, Some false) -> v_stop e = true ->
  length rs = S i /\ x = 1%Z.
Proof.
  intros fuel nowait ws l start k c x rs c2 e ND H. revert start k c x rs c2 H. induction l as [|e0 l IH]; intros start k c x rs c2 H i I R SE.
  - destruct i; discriminate I.
  - cbn [run_tests] in H. destruct (extend_same ws e0) as [X1 [X2 [X3 _]]]. set (e1 := extend_device ws e0) in *.
    destruct (ET fuel nowait e1 start k c) as [[[[[t tr] sl] k1] c1]|]; [|discriminate H]. destruct t as [|res].
    + inversion H; subst. destruct i; discriminate R.
    + destruct (match res with Some false => v_stop e1 | _ => false end) eqn:ST.
      * inversion H; subst. destruct i as [|[|i]]; try discriminate R. auto.
      * destruct (match v_wait e1 with Some _ => (Some (o_time (W k1)), S k1) | None => (start, k1) end) as [start1 k2].
        destruct (RUN fuel nowait ws l start1 k2 c1) as [[[y rs2] c3]|] eqn:RR; [|discriminate H]. inversion H; subst.
        destruct i as [|i]; cbn in I, R.
        -- inversion I; subst. inversion R; subst. rewrite X3, SE in ST. discriminate ST.
        -- assert (ND2 : forall e, In e l -> NoDup (nodes_of e)) by (intros z Z; apply ND; now right).
           destruct (IH ND2 _ _ _ _ _ _ RR i I R SE) as [L ->]. cbn. auto.
Qed.
(* C143: without waiting every node is tried exactly once, failures are final, and nobody sleeps; with
   waiting a failure is final from the end of the waiting time on. *)
Theorem skip_wait_exact : forall f e start k c,
  (forall i j, i <= j -> (o_time (W i) <= o_time (W j))%Z) ->
  (nodes_of e = [] -> exists t k2 c2, ET (S f) true e start k c = Some (t, [], [], k2, c2)) /\
  (nodes_of e <> [] -> v_config e = false ->
   exists r tr k2 c2, ET (S f) true e start k c = Some (TRes r, tr, [], k2, c2) /\
     map a_node tr = nodes_of e /\ forall a, In a tr -> a_report a = true /\ a_done a = true).
Proof.
  intros f e start k c M. split; intro N.
  - unfold exec_test. rewrite N. destruct (v_wait e) as [w|].
    + destruct (v_stop e && negb (Nat.eqb (n_failed c) 0)); cbn [orb]; repeat eexists.
    + repeat eexists.
  - intro V. unfold exec_test.
    assert (NN : exists n0 nr, nodes_of e = n0 :: nr) by (destruct (nodes_of e) as [|n0 nr]; [now destruct N | eauto]).
    destruct NN as [n0 [nr NN]]. rewrite NN, V. rewrite <- NN. cbn [retry]. rewrite NN. rewrite <- NN.
    set (stop := (o_time (W k) + 0 * SECOND)%Z).
    destruct (OP e stop (nodes_of e) (nodes_of e) None (S k) c) as [[[[rem1 ret1] tr] k1] c1] eqn:P.
    pose proof (one_pass_facts _ _ _ _ _ _ _ _ _ _ _ _ _ _ _ P) as [A [B [_ [D [R _]]]]].
    assert (Q : forall a, In a tr -> a_report a = true /\ a_done a = true).
    { intros a I. destruct (D a I) as [X [c0 [c0' Y]]].
      assert (T : a_report a = true).
      { rewrite X. apply Z.leb_le. assert (J : In (a_obs a) (seq (S k) (length (nodes_of e)))) by (rewrite <- B; apply in_map, I).
        apply in_seq in J. pose proof (M k (a_obs a) ltac:(lia)). unfold stop. lia. }
      split; [exact T|]. destruct (a_done a) eqn:DN; [reflexivity|]. apply again_inv in Y. destruct Y as [Y _]. congruence. }
    assert (R0 : rem1 = []).
    { rewrite R. assert (G : forall l, (forall n, In n l -> In n (nodes_of e)) -> filter (fun n => negb (finished tr n)) l = []).
      { induction l as [|n l IH]; intro S; [reflexivity|]. cbn [filter].
        assert (F : finished tr n = true).
        { unfold finished. apply existsb_exists. assert (J : In n (map a_node tr)) by (rewrite A; apply S; now left).
          apply in_map_iff in J. destruct J as [a [E I]]. exists a. split; [exact I|]. rewrite E, String.eqb_refl. apply (Q a I). }
        rewrite F. cbn [negb]. apply IH. intros x I. apply S. now right. }
      apply G. auto. }
    rewrite R0. cbn [retry]. destruct f; cbn [retry]; rewrite app_nil_r; exists ret1, tr, k1, c1; (split; [reflexivity | split; [exact A | exact Q]]).
Qed.

Theorem wait_deadline_exact : forall f e start k c r tr sl k2 c2,
  nodes_of e <> [] -> v_config e = false -> ET f false e start k c = Some (TRes r, tr, sl, k2, c2) ->
  sl = [] /\ forall a, In a tr ->
    (a_report a = true <->
     (o_time (W k) + match v_wait e with Some w => w | None => 0 end * 1000000 <= o_time (W (a_obs a)))%Z).
Proof.
  intros f e start k c r tr sl k2 c2 N V H. unfold exec_test in H.
  destruct (nodes_of e) as [|n0 nr] eqn:NN; [now destruct N|]. rewrite V, <- NN in H. clear N NN.
  set (stop := (o_time (W k) + match v_wait e with Some w => w | None => 0 end * SECOND)%Z) in *.
  assert (G : forall f rem ret k c r tr k2 c2, RT f e stop rem ret k c = Some (r, tr, k2, c2) ->
            forall a, In a tr -> a_report a = Z.leb stop (o_time (W (a_obs a)))).
  { clear H. clearbody stop. clear. induction f as [|f IH]; intros rem ret k c r tr k2 c2 H a I; cbn [retry] in H.
    - destruct rem; [|discriminate H]. inversion H; subst. destruct I.
    - destruct rem as [|n0 nr] eqn:RM; [inversion H; subst; destruct I|]. rewrite <- RM in *.
      destruct (OP e stop rem rem ret k c) as [[[[rem1 ret1] tr1] k1] c1] eqn:P.
      destruct (RT f e stop rem1 ret1 k1 c1) as [[[[r3 tr3] k3] c3]|] eqn:R; [|discriminate H]. inversion H; subst r3 tr k3 c3.
      apply in_app_iff in I. destruct I as [I|I]; [|exact (IH _ _ _ _ _ _ _ _ R a I)].
      pose proof (one_pass_facts _ _ _ _ _ _ _ _ _ _ _ _ _ _ _ P) as [_ [_ [_ [D _]]]]. exact (proj1 (D a I)). }
  destruct (v_wait e) as [w|] eqn:VW;
  (match type of H with match ?x with _ => _ end = _ => destruct x as [[[[r0 tr0] k0] c0]|] eqn:R; [|discriminate H] end;
   injection H as <- <- <- <- <-; split; [reflexivity|]; intros a I; rewrite (G _ _ _ _ _ _ _ _ _ R a I); unfold stop, SECOND; apply Z.leb_le).
Qed.

End Run.

(* ---- failures that go unnoticed, and passed tests that fail ---- *)

(* one node (all devices are FRR), no plugins; the clock advances by a second with every observation *)
Definition frr (n : string) : string := "frr".
Definition noplug (d : string) : option bool := None.
Definition obs_at (k : nat) (sh ex : bool) (q : sq) (x : ev) (p : pl) (cf : bool) : obs :=
  mk_obs (Z.of_nat k * SECOND) sh ex q x p cf.

(* an exec test without an expression: the command fails before the deadline *)
Definition t_exec (w : option Z) : vtest :=
  mk_vtest "cmd" (Some ["r1"]) (Some ["frr"]) None (Some OAll) false None false None w false false.

(* commands that always fail *)
Definition all_fail (k : nat) : obs := obs_at k false false QErr EvFalse PFalse false.

(* a SuzieQ test *)
Definition t_sq (valid : option vopt) : vtest :=
  mk_vtest "sq" (Some ["r1"]) None None None false (Some (false, false)) false valid None false false.

(* without waiting the test fails at once, with waiting after the waiting time *)
Example t_skip_wait :
  exists c, exec_test frr noplug all_fail 20 true (t_exec (Some 10%Z)) (Some 0%Z) 0 cnt0 =
    Some (TRes (Some false), [mk_att "r1" 1 true true (Some false)], [], 2, c).
Proof. eexists. vm_compute. reflexivity. Qed.

Definition two_records (k : nat) : obs := obs_at k true true (QList [EvTrue; EvFalse]) EvFalse PFalse true.

(* a show test for another device, and a show test without nodes *)
Definition t_other : vtest :=
  mk_vtest "bgp" (Some ["r1"]) None (Some (ODev ["eos"])) None false None false (Some (ODev ["eos"])) None false false.
Definition t_nonodes : vtest :=
  mk_vtest "bgp" None None (Some (ODev ["frr"])) None false None false (Some (ODev ["frr"])) (Some 10%Z) false false.

(* exit code 0 does not mean that the tests have passed; the lab is one where every command fails *)
Theorem exit_zero_passed_refuted :
  (forall e, In e [t_exec (Some 10%Z); t_sq None; t_other; t_nonodes] ->
     snd (process_entry e) = None /\
     exists res c, run_tests frr noplug all_fail 10 false (fun _ => []) [e] (Some 0%Z) 0 cnt0 = Some (0%Z, [(v_name e, res)], c) /\
                   n_passed c = 0) /\
  (exists c, run_tests frr noplug all_fail 10 false (fun _ => []) [t_exec None] (Some 0%Z) 0 cnt0 = Some (1%Z, [("cmd", Some false)], c)).
Proof.
  split.
  - intros e [E|[E|[E|[E|[]]]]]; subst e; (split; [vm_compute; reflexivity|]); eexists; eexists; vm_compute; split; reflexivity.
  - eexists. vm_compute. reflexivity.
Qed.

(* a failed SuzieQ command is a success of the test *)
Theorem suzieq_failure_refuted :
  exists c, run_tests frr noplug all_fail 10 false (fun _ => []) [t_sq None] (Some 0%Z) 0 cnt0 = Some (0%Z, [("sq", Some true)], c).
Proof. eexists. vm_compute. reflexivity. Qed.

(* one of two records passes, so the test passes, and the exit code tells that a test failed *)
Theorem suzieq_any_refuted :
  exists c, run_tests frr noplug two_records 10 false (fun _ => []) [t_sq (Some OAll)] (Some 0%Z) 0 cnt0
            = Some (1%Z, [("sq", Some true)], c) /\ n_passed c = 1 /\ n_failed c = 1.
Proof. eexists. vm_compute. auto. Qed.

(* a warning in a test with stop_on_error ends with the exit code of a failure *)
Theorem stop_on_warning_refuted :
  let e := mk_vtest "adj" (Some ["r1"]) None (Some (ODev ["frr"])) None false None false (Some (ODev ["frr"])) None true true in
  exists c, run_tests frr noplug all_fail 10 false (fun _ => []) [e] (Some 0%Z) 0 cnt0 = Some (1%Z, [("adj", Some false)], c) /\
            n_failed c = 0 /\ n_warning c = 1.
Proof. eexists. vm_compute. auto. Qed.

(* a show command that fails is not repeated *)
Theorem show_failure_not_retried_refuted :
  let e := mk_vtest "adj" (Some ["r1"]) None (Some (ODev ["frr"])) None false None false (Some (ODev ["frr"])) (Some 60%Z) false false in
  let lab := fun k => obs_at k (Nat.ltb 5 k) true QErr EvTrue PFalse true in
  exists c tr, exec_test frr noplug lab 100 false e None 0 cnt0 = Some (TRes (Some false), tr, [], 2, c) /\ length tr = 1.
Proof. eexists. eexists. vm_compute. auto. Qed.

(* without a show command, a command of a test with an expression is repeated until the deadline *)
Example exec_retried :
  let lab := fun k => obs_at k true (Nat.ltb 5 k) QErr (if Nat.ltb 5 k then EvTrue else EvFalse) PFalse true in
  option_map (fun x => match x with (t, tr, _, _, _) => (t, map a_obs tr) end)
    (exec_test frr noplug lab 100 false (mk_vtest "ping" (Some ["h1"; "h2"]) (Some ["linux"]) None (Some OAll) false None false (Some OAll) (Some 45%Z) false false) None 0 cnt0)
  = Some (TRes (Some true), [1; 2; 3; 4; 5; 6; 7]).
Proof. vm_compute. reflexivity. Qed.

Example three_tests :
  let lab := fun k => obs_at k true true QErr (if Nat.ltb k 60 then EvFalse else EvTrue) PFalse true in
  let bad := mk_vtest "adj" (Some ["r1"]) None (Some (ODev ["frr"])) None false None false (Some (ODev ["frr"])) None false true in
  option_map (fun x => match x with (code, rs, _) => (code, rs) end)
    (run_tests frr noplug lab 100 false (fun _ => []) [bad; mk_vtest "ping" (Some ["h1"]) None None (Some OAll) false None false (Some OAll) (Some 90%Z) false false] (Some 0%Z) 0 cnt0)
  = Some (3%Z, [("adj", Some false); ("ping", Some true)]).
Proof. vm_compute. reflexivity. Qed.

Print Assumptions suzieq_records.
Print Assumptions exit_zero.
Print Assumptions exit_code_exact.
Print Assumptions stop_on_error_stops.
Print Assumptions exit_zero_passed_refuted.
Print Assumptions suzieq_failure_refuted.
Print Assumptions suzieq_any_refuted.
Print Assumptions stop_on_warning_refuted.
Print Assumptions show_failure_not_retried_refuted.
Print Assumptions skip_wait_exact.
Print Assumptions wait_deadline_exact.
