(* Validation tests: accepted entries, supported devices, waiting times, selection of tests. *)
From Coq Require Import String Ascii ZArith Lia Bool List Sorting.Sorted.
From Verif Require Import Base Vlan_Props Vlink_Model Vmember_Props Vtest_Model.
Import ListNotations.
Local Open Scope nat_scope.
Local Open Scope string_scope.
Local Open Scope list_scope.

Lemma given_true : forall A (o : option A), given o = true <-> o <> None.
Proof. intros A [a|]; cbn; split; congruence. Qed.

(* ---- accepted entries ---- *)

Definition one_if (b : bool) : nat := if b then 1 else 0.

(* the number of kinds of actions: device commands (show and exec together), configuration, plugin, SuzieQ *)
Definition kinds (e : vtest) : nat :=
  one_if (given (v_show e) || given (v_exec e)) + one_if (v_config e) + one_if (v_plugin e) + one_if (given (v_suzieq e)).

Theorem test_entry_accepted : forall e,
  validate_test_entry e = None <->
  kinds e <= 1 /\
  (kinds e = 0 -> v_wait e <> None) /\
  (v_nodes e = None -> v_suzieq e <> None \/ v_wait e <> None) /\
  (v_show e <> None -> v_valid e <> None) /\
  (v_valid e <> None -> v_show e <> None \/ v_exec e <> None \/ v_suzieq e <> None).
Proof.
  intros e. unfold validate_test_entry, kinds, actions_of.
  destruct (v_show e) as [s|], (v_exec e) as [x|], (v_config e), (v_plugin e), (v_suzieq e) as [q|], (v_wait e) as [w|],
    (v_nodes e) as [n|], (v_valid e) as [v|]; cbn;
  (split;
   [ intros H; try discriminate H; repeat split; intros;
     first [ lia | congruence | left; congruence | right; left; congruence | right; right; congruence | right; congruence ]
   | intros [A [B [C [D F]]]]; try reflexivity; exfalso;
     first [ lia | now apply B | apply D; congruence
           | destruct C as [C|C]; [reflexivity|now apply C|now apply C]
           | destruct F as [F|[F|F]]; [congruence|now apply F|now apply F|now apply F] ] ]).
Qed.

(* ---- supported devices ---- *)

Lemma sorted_set_In : forall x l, In x (sorted_set l) <-> In x l.
Proof. intros x l. unfold sorted_set. rewrite fold_insert_In. cbn [In]. tauto. Qed.

Theorem device_support_exact : forall e e' err,
  validate_test_entry e = None -> v_show e <> None \/ v_exec e <> None -> v_devices e = None ->
  process_entry e = (e', err) ->
  exists l, v_devices e' = Some l /\ StronglySorted slt l /\
    (forall d, In d l <->
       ((exists ks, v_show e = Some (ODev ks) /\ In d ks) \/ (exists ks, v_exec e = Some (ODev ks) /\ In d ks)) /\
       (forall ks, v_valid e = Some (ODev ks) -> In d ks)) /\
    (err = Some ENoDevice <-> l = []) /\ (err = None <-> l <> []).
Proof.
  intros e e' err V SE D P. unfold process_entry in P. rewrite V in P. unfold calculate_device_support in P.
  assert (G : negb (given (v_show e)) && negb (given (v_exec e)) = false).
  { destruct SE as [SE|SE]; apply given_true in SE; rewrite SE; cbn; [reflexivity|apply andb_false_r]. }
  rewrite G in P. rewrite D in P. cbn [given] in P.
  set (d0 := vkeys (v_show e) ++ vkeys (v_exec e)) in *.
  set (d1 := match v_valid e with Some (ODev l) => filter (fun x => memS x l) d0 | _ => d0 end) in *.
  assert (K : forall o d, In d (vkeys o) <-> exists ks, o = Some (ODev ks) /\ In d ks).
  { intros [[|ks]|] d; cbn; split; try (intros []; fail).
    - intros [ks [E _]]. discriminate E.
    - intros I. exists ks. auto.
    - intros [k2 [E I]]. inversion E. subst. exact I.
    - intros [k2 [E _]]. discriminate E. }
  assert (M : forall d, In d (sorted_set d1) <->
       ((exists ks, v_show e = Some (ODev ks) /\ In d ks) \/ (exists ks, v_exec e = Some (ODev ks) /\ In d ks)) /\
       (forall ks, v_valid e = Some (ODev ks) -> In d ks)).
  { intros d. rewrite sorted_set_In. rewrite <- !K, <- in_app_iff. fold d0. unfold d1.
    destruct (v_valid e) as [[|vs]|].
    - split; [intros I; split; [exact I|intros ks E; discriminate E]|tauto].
    - rewrite filter_In, memS_true. split.
      + intros [I J]. split; [exact I|]. intros ks E. inversion E. subst. exact J.
      + intros [I J]. split; [exact I|]. now apply J.
    - split; [intros I; split; [exact I|intros ks E; discriminate E]|tauto]. }
  inversion P; subst. exists (sorted_set d1). split; [reflexivity|]. split; [apply sorted_set_slt|]. split; [exact M|].
  destruct (sorted_set d1) as [|a r]; split; split; intros H; try reflexivity; try discriminate H; congruence.
Qed.

(* a node with a supported device is tested with a device command and has a validation expression *)
Theorem supported_device_tested : forall e e' l pact d,
  process_entry e = (e', None) -> v_show e <> None \/ v_exec e <> None -> v_devices e = None ->
  v_devices e' = Some l -> In d l ->
  (find_test_action pact e' d = Some AShow \/ find_test_action pact e' d = Some AExec) /\
  forall x, expr e' d x = x.
Proof.
  intros e e' l pact d P SE D DL I.
  assert (V : validate_test_entry e = None).
  { unfold process_entry in P. destruct (validate_test_entry e); [discriminate P|reflexivity]. }
  destruct (device_support_exact e e' None V SE D P) as [l' [DL' [_ [M _]]]].
  rewrite DL in DL'. inversion DL'; subst l'. apply M in I. destruct I as [I J].
  assert (E : v_show e' = v_show e /\ v_exec e' = v_exec e /\ v_valid e' = v_valid e).
  { unfold process_entry in P. rewrite V in P. unfold calculate_device_support in P.
    destruct (negb (given (v_show e)) && negb (given (v_exec e))); [inversion P; auto|].
    rewrite D in P. cbn [given] in P. inversion P; subst. cbn. auto. }
  destruct E as [E1 [E2 E3]]. split.
  - unfold find_test_action. rewrite E1, E2.
    destruct (usable d (v_show e)) eqn:U; [now left|]. right.
    destruct I as [[ks [E K]]|[ks [E K]]].
    + rewrite E in U. cbn in U. apply memS_true in K. congruence.
    + rewrite E. cbn. apply memS_true in K. rewrite K. reflexivity.
  - intros x. unfold expr. rewrite E3. destruct (v_valid e) as [[|vs]|] eqn:VV; try reflexivity.
    assert (K : memS d vs = true) by (apply memS_true; now apply J). rewrite K. reflexivity.
Qed.

(* a node with another device never passes a test with device commands given as dictionaries *)
Theorem unsupported_device_never_passes : forall e e' l dev pact n report o c done ok c',
  process_entry e = (e', None) -> v_show e <> None \/ v_exec e <> None -> v_devices e = None ->
  v_show e <> Some OAll -> v_exec e <> Some OAll ->
  v_devices e' = Some l -> ~ In (dev n) l ->
  node_validation dev pact e' n report o c = ((done, ok), c') -> ok <> Some true /\ done = true.
Proof.
  intros e e' l dev pact n report o c done ok c' P SE D NS NE DL NI R.
  assert (V : validate_test_entry e = None).
  { unfold process_entry in P. destruct (validate_test_entry e); [discriminate P|reflexivity]. }
  destruct (device_support_exact e e' None V SE D P) as [l' [DL' [_ [M _]]]].
  rewrite DL in DL'. inversion DL'; subst l'.
  assert (E : e' = set_devices e l).
  { unfold process_entry in P. rewrite V in P. unfold calculate_device_support in P.
    destruct (negb (given (v_show e)) && negb (given (v_exec e))) eqn:G.
    - destruct SE as [SE|SE]; apply given_true in SE; rewrite SE in G; cbn in G; [discriminate G|rewrite andb_false_r in G; discriminate G].
    - rewrite D in P. cbn [given] in P. inversion P; subst e'. cbn in DL. inversion DL. reflexivity. }
  apply test_entry_accepted in V. destruct V as [K1 [_ [_ [SV VD]]]].
  assert (K : v_config e = false /\ v_plugin e = false /\ v_suzieq e = None).
  { unfold kinds in K1. assert (G : given (v_show e) || given (v_exec e) = true).
    { apply orb_true_iff. destruct SE as [SE|SE]; apply given_true in SE; auto. }
    rewrite G in K1. cbn [one_if] in K1. destruct (v_config e), (v_plugin e), (v_suzieq e); cbn in K1; auto; lia. }
  destruct K as [KC [KP KQ]].
  unfold node_validation, find_test_action in R. subst e'. cbn [v_show v_exec v_config v_suzieq v_plugin v_wait set_devices] in R.
  rewrite KC, KP, KQ in R. cbn [given] in R.
  assert (X : forall a ok1, check_results (set_devices e l) (dev n) o a None report c = ((done, ok1), c') ->
             (usable (dev n) (v_show e) || usable (dev n) (v_exec e) = true) ->
             (a = AShow -> v_valid e <> None) -> ok1 <> Some true /\ done = true).
  { intros a ok1 H U AV. unfold check_results in H. cbn [v_valid set_devices v_suzieq v_plugin] in H. rewrite KP, KQ in H. cbn [andb] in H.
    assert (J : forall ks, v_valid e = Some (ODev ks) -> memS (dev n) ks = false).
    { intros ks E. destruct (memS (dev n) ks) eqn:B; [|reflexivity]. exfalso. apply NI, M. split.
      - apply orb_true_iff in U. destruct U as [U|U].
        + left. destruct (v_show e) as [[|k2]|]; cbn in U; [congruence|exists k2; split; [reflexivity|now apply memS_true]|discriminate U].
        + right. destruct (v_exec e) as [[|k2]|]; cbn in U; [congruence|exists k2; split; [reflexivity|now apply memS_true]|discriminate U].
      - intros k2 E2. rewrite E in E2. inversion E2. subst. now apply memS_true. }
    destruct (v_valid e) as [[|vs]|] eqn:VV; cbn [given] in H.
    - exfalso. apply NI, M. split; [|intros ks E; discriminate E].
      apply orb_true_iff in U. destruct U as [U|U].
      + left. destruct (v_show e) as [[|k2]|]; cbn in U; [congruence|exists k2; split; [reflexivity|now apply memS_true]|discriminate U].
      + right. destruct (v_exec e) as [[|k2]|]; cbn in U; [congruence|exists k2; split; [reflexivity|now apply memS_true]|discriminate U].
    - assert (Z : eval_expr (set_devices e l) (dev n) (o_ev o) report true c = (None, skip1 c)).
      { unfold eval_expr, expr. cbn [v_valid set_devices]. rewrite VV, (J vs eq_refl). reflexivity. }
      rewrite Z in H. destruct a; inversion H; split; congruence.
    - inversion H; split; congruence. }
  destruct (usable (dev n) (v_show e)) eqn:U1.
  - destruct (o_show o); [|inversion R; subst; split; congruence].
    apply (X AShow ok R); [reflexivity|]. intros _. apply SV. intros E. rewrite E in U1. discriminate U1.
  - destruct (usable (dev n) (v_exec e)) eqn:U2.
    + destruct (negb (o_exec o) && report); [inversion R; subst; split; congruence|].
      apply (X AExec ok R); [reflexivity|]. intros Q. discriminate Q.
    + assert (G : given (v_wait e) && negb (given (v_show e)) && negb (given (v_exec e)) = false).
      { destruct SE as [SE|SE]; apply given_true in SE; rewrite SE; cbn; rewrite ?andb_false_r; reflexivity. }
      rewrite G in R. inversion R; subst; split; congruence.
Qed.

(* ---- waiting ---- *)

Local Open Scope Z_scope.

Definition total (l : list Z) : Z := fold_right Z.add 0 l.

Lemma sleeps_total : forall fuel w, w < Z.of_nat fuel -> total (sleeps fuel w) = Z.max 0 w.
Proof.
  induction fuel as [|f IH]; intros w H.
  - cbn [sleeps]. destruct (Z.ltb_spec w 0); cbn; lia.
  - cbn [sleeps]. destruct (Z.ltb_spec w 0); [cbn; lia|].
    cbn [total fold_right]. fold (total (sleeps f (w - 5))). rewrite IH by lia. destruct (Z.ltb_spec w 5); lia.
Qed.

Lemma sleeps_bound : forall fuel w x, In x (sleeps fuel w) -> 0 <= x <= 5.
Proof.
  induction fuel as [|f IH]; intros w x; cbn [sleeps]; destruct (Z.ltb_spec w 0); intros I; try destruct I as [I|I]; try destruct I.
  - subst. destruct (Z.ltb_spec w 5); lia.
  - eapply IH; eauto.
Qed.

(* the delay ends less than a second after the requested time, and not before it *)
Theorem wait_exact : forall w s now,
  let t := total (wait_before_testing w (Some s) now) in
  (s + w * SECOND <= now -> t = 0) /\
  (now < s + w * SECOND -> s + w * SECOND <= now + t * SECOND < s + w * SECOND + SECOND) /\
  (forall x, In x (wait_before_testing w (Some s) now) -> 0 <= x <= 5).
Proof.
  intros w s now t. subst t. unfold wait_before_testing.
  set (a := now - s - w * SECOND). pose proof (Z.div_mod a SECOND) as DM. pose proof (Z.mod_pos_bound a SECOND) as MB.
  unfold SECOND in *. assert (P : 0 < 1000000) by lia. specialize (DM ltac:(lia)). specialize (MB P).
  assert (T : total (sleeps (S (Z.to_nat (- (a / 1000000)))) (- (a / 1000000))) = Z.max 0 (- (a / 1000000))).
  { apply sleeps_total. lia. }
  rewrite T. split; [|split].
  - intros H. assert (0 <= a / 1000000) by (apply Z.div_pos; unfold a; lia). lia.
  - intros H. unfold a in *. lia.
  - intros x. apply sleeps_bound.
Qed.

Theorem wait_without_start : forall w now, total (wait_before_testing w None now) = Z.max 0 w.
Proof. intros w now. unfold wait_before_testing. apply sleeps_total. lia. Qed.

Lemma max_delay_spec : forall l, (forall d, In d l -> d <= max_delay l) /\ (max_delay l = 0 \/ In (max_delay l) l) /\ 0 <= max_delay l.
Proof.
  intros l. unfold max_delay.
  assert (G : forall l m, 0 <= m ->
    let x := fold_left (fun m d => if m <? d then d else m) l m in
    m <= x /\ (forall d, In d l -> d <= x) /\ (x = m \/ In x l)).
  { induction l0 as [|d r IH]; intros m M; cbn [fold_left].
    - cbn. repeat split; try lia; intros d [].
    - destruct (Z.ltb_spec m d) as [L|L].
      + destruct (IH d ltac:(lia)) as [A [B C]]. cbn zeta. repeat split; try lia.
        * intros y [Y|Y]; [subst; lia|now apply B].
        * right. destruct C as [C|C]; [left; congruence|now right].
      + destruct (IH m M) as [A [B C]]. cbn zeta. repeat split; try lia.
        * intros y [Y|Y]; [subst; lia|now apply B].
        * destruct C as [C|C]; [now left|right; now right]. }
  destruct (G l 0 ltac:(lia)) as [A [B C]]. repeat split; auto.
Qed.

(* only the first test with a non-zero wait attribute is changed *)
Theorem first_wait_extended : forall delays pre e post w,
  (forall x, In x pre -> v_wait x = None \/ v_wait x = Some 0) -> v_wait e = Some w -> w <> 0 ->
  exists m, (forall d, In d delays -> d <= m) /\ (m = 0 \/ In m delays) /\ 0 <= m /\
    map v_wait (extend_first delays (pre ++ e :: post)) = map v_wait pre ++ Some (w + m) :: map v_wait post /\
    length (extend_first delays (pre ++ e :: post)) = length (pre ++ e :: post) /\
    map v_name (extend_first delays (pre ++ e :: post)) = map v_name (pre ++ e :: post).
Proof.
  intros delays pre e post w P E N. destruct (max_delay_spec delays) as [A [B C]]. exists (max_delay delays).
  repeat (split; [assumption|]). unfold extend_first. destruct (Z.eqb_spec (max_delay delays) 0) as [Z|Z].
  - rewrite Z, Z.add_0_r, <- E. rewrite map_app. cbn [map]. auto.
  - induction pre as [|x r IH].
    + cbn [app add_first]. rewrite E. destruct (Z.eqb_spec w 0); [contradiction|]. cbn. auto.
    + assert (PX : v_wait x = None \/ v_wait x = Some 0) by (apply P; now left).
      destruct IH as [I1 [I2 I3]]. { intros y Y. apply P. now right. }
      cbn [app add_first]. destruct PX as [PX|PX]; rewrite PX; cbn [Z.eqb]; cbn [map length]; rewrite I1, I2, I3, PX; auto.
Qed.

Theorem device_wait_extended : forall ws e,
  let w0 := match v_wait e with Some w => w | None => 0 end in
  let w1 := match v_wait (extend_device ws e) with Some w => w | None => 0 end in
  w0 <= w1 /\ (forall w, In w (ws (v_name e)) -> w <= w1) /\ (w1 = w0 \/ In w1 (ws (v_name e))) /\
  ((forall w, In w (ws (v_name e)) -> w <= w0) -> extend_device ws e = e) /\
  v_name (extend_device ws e) = v_name e /\ nodes_of (extend_device ws e) = nodes_of e.
Proof.
  intros ws e. unfold extend_device. generalize (ws (v_name e)). intros l. revert e.
  induction l as [|w r IH]; intros e; cbn [fold_left].
  - cbn zeta. repeat split; try lia; auto; intros w [].
  - destruct (Z.ltb_spec (match v_wait e with Some x => x | None => 0 end) w) as [L|L].
    + specialize (IH (set_wait e w)). cbn [v_wait set_wait] in IH. cbn zeta in *. destruct IH as [A [B [C [D [F G]]]]].
      repeat split.
      * lia.
      * intros y [Y|Y]; [subst; lia|now apply B].
      * right. destruct C as [C|C]; [left; congruence|now right].
      * intros H. exfalso. specialize (H w (or_introl eq_refl)). lia.
      * rewrite F. reflexivity.
      * rewrite G. reflexivity.
    + specialize (IH e). cbn zeta in *. destruct IH as [A [B [C [D [F G]]]]]. repeat split; auto.
      * intros y [Y|Y]; [subst; lia|now apply B].
      * destruct C as [C|C]; [now left|right; now right].
      * intros H. apply D. intros y Y. apply H. now right.
Qed.

(* documentation (docs/topology/validate.md, wait): the retry time is measured from the start of the lab
   or from the previous test with a wait attribute; it is measured from the start of the test *)
Theorem retry_time_ignores_start : forall dev pact W fuel nowait e s1 s2 k c,
  nodes_of e <> [] -> exec_test dev pact W fuel nowait e s1 k c = exec_test dev pact W fuel nowait e s2 k c.
Proof. intros dev pact W fuel nowait e s1 s2 k c N. unfold exec_test. destruct (nodes_of e); [now destruct N|reflexivity]. Qed.

Local Open Scope nat_scope.

(* ---- selection of tests ---- *)

Theorem tests_by_name : forall names l l' errs,
  filter_by_tests names l = (l', errs) ->
  (errs = [] <-> forall t, In t names -> exists e, In e l /\ v_name e = t) /\
  (forall t, In (SNoTest t) errs <-> In t names /\ forall e, In e l -> v_name e <> t) /\
  (errs <> [] -> l' = l) /\ (names = [] -> l' = l) /\
  (errs = [] -> names <> [] -> l' = filter (fun e => memS (v_name e) names) l).
Proof.
  intros names l l' errs H. unfold filter_by_tests in H.
  set (bad := filter (fun t => negb (existsb (fun e => String.eqb (v_name e) t) l)) names) in *.
  assert (B : forall t, In t bad <-> In t names /\ forall e, In e l -> v_name e <> t).
  { intros t. unfold bad. rewrite filter_In. split; intros [A C]; (split; [exact A|]).
    - intros e I E. apply negb_true_iff in C.
      assert (X : existsb (fun e => String.eqb (v_name e) t) l = true) by (apply existsb_exists; exists e; split; [exact I|now apply String.eqb_eq]). congruence.
    - apply negb_true_iff. destruct (existsb (fun e => String.eqb (v_name e) t) l) eqn:X; [|reflexivity].
      apply existsb_exists in X. destruct X as [e [I E]]. apply String.eqb_eq in E. now destruct (C e I). }
  assert (Q : bad = [] <-> forall t, In t names -> exists e, In e l /\ v_name e = t).
  { split.
    - intros N t T. destruct (existsb (fun e => String.eqb (v_name e) t) l) eqn:X.
      + apply existsb_exists in X. destruct X as [e [I E]]. exists e. split; [exact I|now apply String.eqb_eq].
      + exfalso. assert (I : In t bad) by (unfold bad; apply filter_In; split; [exact T|now rewrite X]). rewrite N in I. destruct I.
    - intros F. destruct bad as [|t r] eqn:X; [reflexivity|]. exfalso. assert (I : In t (t :: r)) by now left.
      apply B in I. destruct I as [I J]. destruct (F t I) as [e [E1 E2]]. now destruct (J e E1). }
  destruct names as [|t0 ns] eqn:NN.
  - inversion H; subst. split; [rewrite <- Q; split; auto|]. split; [intros t; split; [intros []|intros [[] _]]|].
    split; [congruence|]. split; congruence.
  - rewrite <- NN in *. assert (NE : names <> []) by congruence. clearbody bad. clear NN. destruct bad as [|b r] eqn:X; inversion H; subst l' errs; clear H.
    + split; [rewrite <- Q; split; auto|]. split; [|split; [congruence|split; [congruence|reflexivity]]].
      intros t. split; [intros []|]. intros I. apply B in I. destruct I.
    + split; [rewrite <- Q; split; intros Y; discriminate Y|]. split; [|split; [reflexivity|split; [reflexivity|intros Y; discriminate Y]]].
      change (SNoTest b :: map SNoTest r) with (map SNoTest (b :: r)).
      intros t. rewrite <- B. split.
      * intros I. apply in_map_iff in I. destruct I as [y [Y1 Y2]]. inversion Y1. subst. exact Y2.
      * intros I. now apply (in_map SNoTest).
Qed.


(* the selected nodes of the selected tests; nothing else changes *)
Theorem tests_by_node : forall all nodes l l' errs,
  nodes <> [] -> filter_by_nodes all nodes [] l = (l', errs) ->
  (errs = [] <-> (forall n, In n nodes -> In n all) /\ exists e n, In e l /\ In n (nodes_of e) /\ In n nodes) /\
  (forall n, In (SNoNode n) errs <-> In n nodes /\ ~ In n all) /\
  (errs = [] -> forall e', In e' l' <->
     exists e, In e l /\ (exists n, In n (nodes_of e) /\ In n nodes) /\
               e' = set_nodes e (filter (fun n => memS n nodes) (nodes_of e))) /\
  (errs = [] -> forall e', In e' l' -> nodes_of e' <> [] /\ forall n, In n (nodes_of e') -> In n nodes).
Proof.
  intros all nodes l l' errs NE H. unfold filter_by_nodes in H.
  set (bad := filter (fun n => negb (memS n all)) nodes) in *.
  set (keep := filter (fun e => existsb (fun n => memS n nodes) (nodes_of e)) l) in *.
  assert (B : forall n, In n bad <-> In n nodes /\ ~ In n all).
  { intros n. unfold bad. rewrite filter_In, negb_true_iff, memS_false. tauto. }
  assert (BN : bad = [] <-> forall n, In n nodes -> In n all).
  { split.
    - intros E n I. destruct (in_dec string_dec n all) as [A|A]; [exact A|]. exfalso.
      assert (X : In n bad) by (apply B; auto). rewrite E in X. destruct X.
    - intros F. destruct bad as [|x r] eqn:E; [reflexivity|]. exfalso. assert (X : In x (x :: r)) by now left.
      apply B in X. destruct X as [X Y]. now apply Y, F. }
  assert (K : forall e, In e keep <-> In e l /\ exists n, In n (nodes_of e) /\ In n nodes).
  { intros e. unfold keep. rewrite filter_In, existsb_exists. split.
    - intros [A [n [N1 N2]]]. split; [exact A|]. exists n. split; [exact N1|now apply memS_true].
    - intros [A [n [N1 N2]]]. split; [exact A|]. exists n. split; [exact N1|now apply memS_true]. }
  destruct nodes as [|n0 ns] eqn:NN; [now destruct NE|]. rewrite <- NN in *. clear NN. cbn [app] in H.
  destruct (map SNoNode bad) as [|x r] eqn:MB.
  - assert (E0 : bad = []) by (destruct bad; [reflexivity|discriminate MB]).
    destruct keep as [|e1 kr] eqn:KK.
    + inversion H; subst l' errs. split.
      * split; [intros Y; discriminate Y|]. intros [_ [e [n [A [C D]]]]]. exfalso.
        assert (X : In e (@nil vtest)) by (apply K; split; [exact A|exists n; auto]). destruct X.
      * split; [|split; intros Y; discriminate Y]. intros n. split.
        -- intros [Y|[]]. discriminate Y.
        -- intros X. apply B in X. rewrite E0 in X. destruct X.
    + rewrite <- KK in *.
      assert (HH : l' = map (fun e => set_nodes e (filter (fun n => memS n nodes) (nodes_of e))) keep /\ errs = []).
      { rewrite KK in *. inversion H. auto. }
      destruct HH as [-> ->]. clear H. split; [|split; [|split]].
      * split; [|reflexivity]. intros _. split; [now apply BN|].
        assert (X : In e1 keep) by (rewrite KK; now left). apply K in X. destruct X as [X [n [N1 N2]]]. exists e1, n. auto.
      * intros n. split; [intros []|]. intros X. apply B in X. rewrite E0 in X. destruct X.
      * intros _ e'. rewrite in_map_iff. split.
        -- intros [e [E I]]. apply K in I. destruct I as [I J]. exists e. auto.
        -- intros [e [I [J E]]]. exists e. split; [now symmetry|]. apply K. auto.
      * intros _ e' I. apply in_map_iff in I. destruct I as [e [E I]]. apply K in I. destruct I as [_ [n [N1 N2]]]. subst e'.
        cbn [nodes_of set_nodes v_nodes]. fold (nodes_of e). split.
        -- intros F. assert (X : In n (filter (fun n => memS n nodes) (nodes_of e))) by (apply filter_In; split; [exact N1|now apply memS_true]).
           rewrite F in X. destruct X.
        -- intros m M. apply filter_In in M. destruct M as [_ M]. now apply memS_true.
  - inversion H; subst l' errs. rewrite <- MB in *.
    assert (NB : bad <> []) by (intros Y; rewrite Y in MB; discriminate MB). split; [|split; [|split]].
    + split; [intros Y; rewrite Y in MB; discriminate MB|]. intros [A _]. exfalso. now apply NB, BN.
    + intros n. rewrite <- B. split.
      * intros I. apply in_map_iff in I. destruct I as [y [Y1 Y2]]. inversion Y1. subst. exact Y2.
      * intros I. now apply in_map.
    + intros Y. rewrite Y in MB. discriminate MB.
    + intros Y. rewrite Y in MB. discriminate MB.
Qed.

Inductive subseq {A} : list A -> list A -> Prop :=
| sub_nil : subseq [] []
| sub_skip : forall x l m, subseq l m -> subseq l (x :: m)
| sub_take : forall x l m, subseq l m -> subseq (x :: l) (x :: m).

Lemma subseq_refl : forall A (l : list A), subseq l l.
Proof. induction l; constructor; assumption. Qed.

Lemma subseq_nil : forall A (l : list A), subseq [] l.
Proof. induction l; constructor; assumption. Qed.

Lemma subseq_filter : forall A (f : A -> bool) l, subseq (filter f l) l.
Proof. induction l as [|x r IH]; cbn; [constructor|]. destruct (f x); constructor; assumption. Qed.

Lemma subseq_map : forall A B (f : A -> B) l m, subseq l m -> subseq (map f l) (map f m).
Proof. intros A B f l m H. induction H; cbn; constructor; assumption. Qed.

Lemma subseq_trans : forall A (l m n : list A), subseq l m -> subseq m n -> subseq l n.
Proof.
  intros A l m n H1 H2. revert l H1. induction H2 as [|x m n H IH|x m n H IH]; intros l H1.
  - exact H1.
  - constructor. now apply IH.
  - inversion H1; subst; constructor; now apply IH.
Qed.

(* the order of the tests does not depend on the order of the arguments *)
Theorem selected_tests_order : forall names all nodes l l' errs,
  select_tests names all nodes l = (l', errs) -> subseq (map v_name l') (map v_name l).
Proof.
  intros names all nodes l l' errs H. unfold select_tests in H.
  destruct (filter_by_tests names l) as [l1 e1] eqn:F.
  assert (A : subseq (map v_name l1) (map v_name l)).
  { apply subseq_map. unfold filter_by_tests in F. destruct names; [inversion F; apply subseq_refl|].
    destruct (filter _ (s :: names)); inversion F; subst; [apply subseq_filter|apply subseq_refl]. }
  apply (subseq_trans _ _ (map v_name l1)); [|exact A]. unfold filter_by_nodes in H.
  destruct nodes as [|n0 ns]; [inversion H; apply subseq_refl|].
  destruct (e1 ++ _) as [|x r]; [|inversion H; apply subseq_refl].
  destruct (filter _ l1) as [|y r] eqn:G; [inversion H; apply subseq_nil|].
  assert (X : l' = map (fun e => set_nodes e (filter (fun n => memS n (n0 :: ns)) (nodes_of e))) (y :: r)) by (inversion H; reflexivity).
  rewrite X, map_map. change (subseq (map v_name (y :: r)) (map v_name l1)). rewrite <- G. apply subseq_map, subseq_filter.
Qed.

(* ---- examples ---- *)

Definition t_ping : vtest :=
  mk_vtest "ping" (Some ["h1"; "h2"]) (Some ["linux"]) None (Some OAll) false None false (Some OAll) (Some 45%Z) false false.
Definition t_session : vtest :=
  mk_vtest "session" (Some ["x1"]) None (Some (ODev ["frr"; "eos"])) (Some (ODev ["iosv"])) false None false
    (Some (ODev ["eos"; "iosv"; "frr"; "nxos"])) None false false.
Definition t_wait : vtest := mk_vtest "wait" None None None None false None false None (Some 30%Z) true false.

Example entries_accepted :
  map validate_test_entry [t_ping; t_session; t_wait] = [None; None; None] /\
  validate_test_entry (mk_vtest "a" (Some ["x"]) None (Some OAll) None false None true (Some OAll) None false false)
    = Some (EActions ["show"; "plugin"]) /\
  validate_test_entry (mk_vtest "a" None None (Some OAll) None false None false (Some OAll) None false false) = Some ENoNodes.
Proof. vm_compute. auto. Qed.

Example session_devices :
  process_entry t_session = (set_devices t_session ["eos"; "frr"; "iosv"], None).
Proof. vm_compute. reflexivity. Qed.

(* the nodes of a test with a wait attribute are not required, and its commands are then never executed *)
Example no_nodes_accepted :
  let e := mk_vtest "a" None (Some ["eos"]) (Some OAll) None false None false (Some OAll) (Some 10%Z) false false in
  process_entry e = (e, None) /\ nodes_of e = [].
Proof. vm_compute. auto. Qed.

Example wait_30 :
  wait_before_testing 30 (Some 1000000%Z) 15500000 = [5; 5; 5; 1]%Z /\ wait_before_testing 10 None 0 = [5; 5; 0]%Z.
Proof. vm_compute. auto. Qed.

Example first_extended :
  map v_wait (extend_first [0; 20; 10]%Z [t_session; t_wait; t_ping]) = [None; Some 50%Z; Some 45%Z].
Proof. vm_compute. reflexivity. Qed.

Example device_extended :
  v_wait (extend_device (fun t => if String.eqb t "ping" then [60; 50]%Z else []) t_ping) = Some 60%Z.
Proof. vm_compute. reflexivity. Qed.

Example selection :
  select_tests ["ping"; "session"] ["h1"; "h2"; "x1"] ["h2"] [t_session; t_wait; t_ping] = ([set_nodes t_ping ["h2"]], []) /\
  snd (select_tests ["pong"] ["h1"] ["h2"] [t_ping]) = [SNoTest "pong"; SNoNode "h2"].
Proof. vm_compute. auto. Qed.

Print Assumptions test_entry_accepted.
Print Assumptions device_support_exact.
Print Assumptions supported_device_tested.
Print Assumptions unsupported_device_never_passes.
Print Assumptions wait_exact.
Print Assumptions wait_without_start.
Print Assumptions first_wait_extended.
Print Assumptions device_wait_extended.
Print Assumptions retry_time_ignores_start.
Print Assumptions tests_by_name.
Print Assumptions tests_by_node.
Print Assumptions selected_tests_order.
