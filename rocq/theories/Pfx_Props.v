(* Properties of checks of prefixes in lab validation. *)
From Coq Require Import String Ascii ZArith Lia Bool List.
From Verif Require Import Base Mod_Model Pfx_Model Mod_Props.
Import ListNotations.
Local Open Scope string_scope.
Local Open Scope list_scope.

(* ------------------------------------------------------------------ *)
(* C243: checks of prefixes                                             *)

Section FrameworkProps.
Variable path : Type.

(* a check that selects the paths with property [p]; it may fail when there are none and the prefix should be present *)
Definition selects (f : check path) (p : path -> bool) : Prop := forall st data,
  f st data = CPaths (filter p data) \/ (filter p data = [] /\ st <> "missing" /\ f st data = CRaise false).

Variable prop : string -> path -> bool.

Lemma run_present : forall st kwargs checks, st <> "missing" -> (forall k f, In (k, f) checks -> In k kwargs -> selects f (prop k)) -> forall data,
  run_checks path st kwargs checks data = true <->
  (forall k, In k kwargs -> ~ In k (map fst checks)) \/ exists x, In x data /\ forall k, In k kwargs -> In k (map fst checks) -> prop k x = true.
Proof.
  intros st kwargs checks NM. assert (EM : String.eqb st "missing" = false) by (apply String.eqb_neq; exact NM).
  induction checks as [|[k f] r IH]; intros S data; cbn [run_checks].
  { rewrite EM. cbn [negb]. split; [intros _; left; intros k _ []|reflexivity]. }
  assert (S' : forall k0 f0, In (k0, f0) r -> In k0 kwargs -> selects f0 (prop k0)) by (intros k0 f0 I; apply S; right; exact I).
  cbn [map fst]. destruct (memS k kwargs) eqn:M.
  - apply memS_true in M. pose proof (S k f (or_introl eq_refl) M st data) as C. rewrite EM.
    assert (NONE : filter (prop k) data = [] -> (false = true <-> (forall k0, In k0 kwargs -> ~ In k0 (k :: map fst r)) \/ exists x, In x data /\ forall k0, In k0 kwargs -> In k0 (k :: map fst r) -> prop k0 x = true)).
    { intros E. split; [intros Q; discriminate Q|]. intros [Q|[x [X Q]]].
      - exfalso. apply (Q k M). left. reflexivity.
      - exfalso. assert (I : In x (filter (prop k) data)) by (apply filter_In; split; [exact X|apply Q; [exact M|left; reflexivity]]). rewrite E in I. destruct I. }
    destruct C as [C|[E [_ C]]]; [|rewrite C; apply NONE; exact E]. rewrite C. destruct (filter (prop k) data) as [|y ys] eqn:E; [apply NONE; reflexivity|].
    rewrite (IH S'). rewrite <- E. split.
    + intros [Q|[x [X Q]]].
      * right. exists y. assert (Y : In y (filter (prop k) data)) by (rewrite E; left; reflexivity). apply filter_In in Y. destruct Y as [Y1 Y2]. split; [exact Y1|]. intros k0 K [I|I]; [subst k0; exact Y2|exfalso; exact (Q k0 K I)].
      * right. apply filter_In in X. destruct X as [X1 X2]. exists x. split; [exact X1|]. intros k0 K [I|I]; [subst k0; exact X2|apply Q; assumption].
    + intros [Q|[x [X Q]]].
      * exfalso. apply (Q k M). left. reflexivity.
      * right. exists x. split; [apply filter_In; split; [exact X|apply Q; [exact M|left; reflexivity]]|]. intros k0 K I. apply Q; [exact K|right; exact I].
  - apply memS_false in M. rewrite (IH S'). split.
    + intros [Q|[x [X Q]]]; [left; intros k0 K [I|I]; [subst k0; contradiction|exact (Q k0 K I)]|right; exists x; split; [exact X|]; intros k0 K [I|I]; [subst k0; contradiction|apply Q; assumption]].
    + intros [Q|[x [X Q]]]; [left; intros k0 K I; apply (Q k0 K); right; exact I|right; exists x; split; [exact X|]; intros k0 K I; apply Q; [exact K|right; exact I]].
Qed.

(* a prefix is present: it is found, all requested checks are known, and one path passes all of them *)
Theorem prefix_present_exact : forall st kwargs checks found, st <> "missing" ->
  (forall k f, In (k, f) checks -> In k kwargs -> selects f (prop k)) ->
  run_prefix_checks path st kwargs checks found = true <->
  exists data, found = Some data /\ (forall k, In k kwargs -> In k (map fst checks))
    /\ (kwargs = [] \/ exists x, In x data /\ forall k, In k kwargs -> prop k x = true).
Proof.
  intros st kwargs checks found NM S. unfold run_prefix_checks. destruct found as [data|].
  2:{ split; [intros Q; apply String.eqb_eq in Q; contradiction|intros [d [Q _]]; discriminate Q]. }
  destruct (forallb (fun k => memS k (map fst checks)) kwargs) eqn:F.
  - assert (K : forall k, In k kwargs -> In k (map fst checks)) by (intros k I; apply memS_true; rewrite forallb_forall in F; apply F; exact I).
    rewrite (run_present st kwargs checks NM S). split.
    + intros H. exists data. split; [reflexivity|]. split; [exact K|]. destruct H as [Q|[x [X Q]]].
      * left. destruct kwargs as [|k r]; [reflexivity|]. exfalso. apply (Q k (or_introl eq_refl)), K. left. reflexivity.
      * right. exists x. split; [exact X|]. intros k I. apply Q; [exact I|apply K; exact I].
    + intros [d [E [_ [Q|[x [X Q]]]]]]; injection E as E; subst d; [left; subst kwargs; intros k []|right; exists x; split; [exact X|]; intros k I _; apply Q; exact I].
  - split; [intros Q; discriminate Q|]. intros [d [_ [K _]]]. exfalso. assert (T : forallb (fun k => memS k (map fst checks)) kwargs = true) by (apply forallb_forall; intros k I; apply memS_true, K, I). congruence.
Qed.

(* a prefix is missing: it is not found, or the first requested check selects no path *)
Theorem prefix_missing_exact : forall kwargs checks found,
  (forall k f, In (k, f) checks -> In k kwargs -> selects f (prop k)) ->
  run_prefix_checks path "missing" kwargs checks found = true <->
  found = None \/ exists data pre k f post, found = Some data /\ (forall q, In q kwargs -> In q (map fst checks))
    /\ checks = pre ++ (k, f) :: post /\ (forall q, In q (map fst pre) -> ~ In q kwargs) /\ In k kwargs /\ forall x, In x data -> prop k x = false.
Proof.
  intros kwargs checks found S. unfold run_prefix_checks. destruct found as [data|]; [|split; [intros _; left; reflexivity|reflexivity]].
  assert (RUN : forall checks, (forall k f, In (k, f) checks -> In k kwargs -> selects f (prop k)) ->
    run_checks path "missing" kwargs checks data = true <-> exists pre k f post, checks = pre ++ (k, f) :: post /\ (forall q, In q (map fst pre) -> ~ In q kwargs) /\ In k kwargs /\ forall x, In x data -> prop k x = false).
  { clear checks S. induction checks as [|[k f] r IH]; intros S; cbn [run_checks].
    { cbn [String.eqb negb]. split; [intros Q; discriminate Q|]. intros [pre [k [f [post [E _]]]]]. destruct pre; discriminate E. }
    destruct (memS k kwargs) eqn:M.
    - apply memS_true in M. destruct (S k f (or_introl eq_refl) M "missing" data) as [C|[_ [C _]]]; [|contradiction C; reflexivity]. rewrite C.
      destruct (filter (prop k) data) as [|y ys] eqn:E.
      + split; [intros _|reflexivity]. exists [], k, f, r. split; [reflexivity|]. split; [intros q []|]. split; [exact M|]. intros x X. destruct (prop k x) eqn:P; [|reflexivity]. exfalso. assert (I : In x (filter (prop k) data)) by (apply filter_In; auto). rewrite E in I. destruct I.
      + change (String.eqb "missing" "missing") with true. split; [intros Q; discriminate Q|]. intros [pre [k0 [f0 [post [Q [N [K Z]]]]]]]. exfalso. destruct pre as [|p pre].
        * injection Q as Q1 Q2 Q3. subst k0. assert (Y : In y (filter (prop k) data)) by (rewrite E; left; reflexivity). apply filter_In in Y. destruct Y as [Y1 Y2]. rewrite (Z y Y1) in Y2. discriminate Y2.
        * injection Q as Q1 Q2. subst p. apply (N k); [left; reflexivity|exact M].
    - apply memS_false in M. rewrite IH by (intros k0 f0 I; apply S; right; exact I). split.
      + intros [pre [k0 [f0 [post [Q [N Z]]]]]]. exists ((k, f) :: pre), k0, f0, post. split; [rewrite Q; reflexivity|]. split; [|exact Z]. intros q [I|I]; [cbn [fst] in I; subst q; exact M|apply N; exact I].
      + intros [pre [k0 [f0 [post [Q [N [K Z]]]]]]]. destruct pre as [|p pre]; [injection Q as Q1 Q2 Q3; subst k0; contradiction|]. injection Q as Q1 Q2. exists pre, k0, f0, post. split; [exact Q2|]. split; [intros q I; apply N; right; exact I|auto]. }
  destruct (forallb (fun k => memS k (map fst checks)) kwargs) eqn:F.
  - assert (K : forall k, In k kwargs -> In k (map fst checks)) by (intros k I; apply memS_true; rewrite forallb_forall in F; apply F; exact I).
    rewrite (RUN checks S). split.
    + intros [pre [k [f [post H]]]]. right. exists data, pre, k, f, post. split; [reflexivity|]. split; [exact K|exact H].
    + intros [Q|[d [pre [k [f [post [E [_ H]]]]]]]]; [discriminate Q|]. injection E as E. subst d. exists pre, k, f, post. exact H.
  - split; [intros Q; discriminate Q|]. intros [Q|[d [pre [k [f [post [_ [K _]]]]]]]]; [discriminate Q|]. exfalso. assert (T : forallb (fun q => memS q (map fst checks)) kwargs = true) by (apply forallb_forall; intros q I; apply memS_true, K, I). congruence.
Qed.
End FrameworkProps.

(* ------------------------------------------------------------------ *)
(* C244: BGP prefixes on FRR                                            *)

Definition wants {A} (o : option A) (q : A -> Prop) : Prop := forall v, o = Some v -> q v.

(* the path has all requested attributes, communities aside *)
Definition meets (a : fargs) (p : fpath) : Prop :=
  wants (a_peer a) (fun v => f_peer p = v)
  /\ wants (a_nh a) (fun v => exists h, In h (f_nh p) /\ (v = h /\ ~ occurs "/" h \/ exists r, v = (h ++ "/" ++ r)%string /\ ~ occurs "/" h))
  /\ wants (a_best a) (fun v => f_best p = Some v)
  /\ wants (a_cluster a) (fun v => exists l, f_cluster p = Some l /\ In v l)
  /\ wants (a_elems a) (fun v => forall n, In n v -> exists s, In s (f_segs p) /\ In n s)
  /\ wants (a_aspath a) (fun v => f_aspath p = v)
  /\ wants (a_loc a) (fun v => f_loc p = Some v)
  /\ wants (a_med a) (fun v => f_med p = Some v).

Lemma slash_occurs : forall c r, occurs "/" (String c r) <-> c = "/"%char \/ occurs "/" r.
Proof.
  intros c r. unfold occurs. split.
  - intros [a [b E]]. destruct a as [|x a]; cbn [String.append] in E; injection E as E1 E2; [left; exact E1|]. right. exists a, b. exact E2.
  - intros [E|[a [b E]]]; [exists ""%string, r; subst c; reflexivity|]. exists (String c a), b. rewrite E. reflexivity.
Qed.

Lemma before_slash_spec : forall v h, before_slash v = h <-> (v = h /\ ~ occurs "/" h \/ exists r, v = (h ++ "/" ++ r)%string /\ ~ occurs "/" h).
Proof.
  assert (NE : ~ occurs "/" ""%string) by (intros [a [b E]]; destruct a; discriminate E).
  induction v as [|c v IH]; intros h; cbn [before_slash].
  - split; [intros E; subst h; left; split; [reflexivity|exact NE]|]. intros [[E _]|[r [E _]]]; [exact E|]. destruct h; discriminate E.
  - destruct (Ascii.eqb_spec c "/") as [C|C].
    + subst c. split.
      * intros E. subst h. right. exists v. split; [reflexivity|exact NE].
      * intros [[E N]|[r [E N]]]; [subst h; exfalso; apply N, slash_occurs; left; reflexivity|]. destruct h as [|x h]; [reflexivity|]. cbn [String.append] in E. injection E as E1 E2. exfalso. apply N, slash_occurs. left. congruence.
    + split.
      * intros E. subst h. destruct (proj1 (IH (before_slash v)) eq_refl) as [[E N]|[r [E N]]].
        -- left. split; [f_equal; exact E|]. rewrite slash_occurs. intros [Q|Q]; contradiction.
        -- right. exists r. split; [cbn [String.append]; f_equal; exact E|]. rewrite slash_occurs. intros [Q|Q]; contradiction.
      * intros [[E N]|[r [E N]]].
        -- subst h. f_equal. apply IH. left. split; [reflexivity|]. intros Q. apply N, slash_occurs. right. exact Q.
        -- destruct h as [|x h]; cbn [String.append] in E; injection E as E1 E2; [subst c; contradiction C; reflexivity|]. subst x. f_equal. apply IH. right. exists r. split; [exact E2|]. intros Q. apply N, slash_occurs. right. exact Q.
Qed.

Lemma left_over_In : forall segs value n, In n (left_over segs value) <-> In n value /\ forall s, In s segs -> ~ In n s.
Proof.
  assert (SEG : forall seg t n, In n (fold_left (fun t asn => if memZ asn t then filter (fun v => negb (Z.eqb v asn)) t else t) seg t) <-> In n t /\ ~ In n seg).
  { induction seg as [|a r IH]; intros t n; cbn [fold_left]; [split; [intros H; split; [exact H|intros []]|intros [H _]; exact H]|]. rewrite IH. cbn [In]. destruct (memZ a t) eqn:M.
    - rewrite filter_In, negb_true_iff, Z.eqb_neq. split; [intros [[A B] C]; split; [exact A|intros [Q|Q]; [congruence|contradiction]]|intros [A B]; split; [split; [exact A|intros Q; apply B; left; congruence]|intros Q; apply B; right; exact Q]].
    - apply memZ_false in M. split; [intros [A B]; split; [exact A|intros [Q|Q]; [subst n; contradiction|contradiction]]|intros [A B]; split; [exact A|intros Q; apply B; right; exact Q]]. }
  unfold left_over. induction segs as [|s r IH]; intros value n; cbn [fold_left]; [split; [intros H; split; [exact H|intros s []]|intros [H _]; exact H]|].
  rewrite IH, SEG. split; [intros [[A B] C]; split; [exact A|intros x [X|X]; [subst x; exact B|apply C; exact X]]|intros [A B]; split; [split; [exact A|apply B; left; reflexivity]|intros x X; apply B; right; exact X]].
Qed.

Lemma left_over_nil : forall segs value, match left_over segs value with [] => true | _ => false end = true <-> forall n, In n value -> exists s, In s segs /\ In n s.
Proof.
  intros segs value. pose proof (left_over_In segs value) as L. split.
  - intros H n N. destruct (left_over segs value) as [|x r]; [|discriminate H].
    destruct (existsb (memZ n) segs) eqn:E; [apply existsb_exists in E; destruct E as [s [S Q]]; exists s; split; [exact S|apply memZ_true; exact Q]|].
    exfalso. apply (L n). split; [exact N|]. intros s S Q. assert (T : existsb (memZ n) segs = true) by (apply existsb_exists; exists s; split; [exact S|apply memZ_true; exact Q]). congruence.
  - intros H. destruct (left_over segs value) as [|x r]; [reflexivity|]. exfalso. destruct (proj1 (L x) (or_introl eq_refl)) as [A B]. destruct (H x A) as [s [S Q]]. exact (B s S Q).
Qed.

(* properties selected by the checks *)
Definition sel (a : fargs) (k : string) (p : fpath) : bool :=
  let is {A} (o : option A) (f : A -> bool) := match o with Some v => f v | None => true end in
  if String.eqb k "peer" then is (a_peer a) (fun v => String.eqb (f_peer p) v)
  else if String.eqb k "nh" then is (a_nh a) (fun v => existsb (fun h => String.eqb h (before_slash v)) (f_nh p))
  else if String.eqb k "best" then is (a_best a) (fun v => opt_eqb Bool.eqb (f_best p) v)
  else if String.eqb k "clusterid" then is (a_cluster a) (fun v => match f_cluster p with Some l => memS v l | None => false end)
  else if String.eqb k "as_elements" then is (a_elems a) (fun v => match left_over (f_segs p) v with [] => true | _ => false end)
  else if String.eqb k "aspath" then is (a_aspath a) (fun v => String.eqb (f_aspath p) v)
  else if String.eqb k "locpref" then is (a_loc a) (fun v => opt_eqb Z.eqb (f_loc p) v)
  else if String.eqb k "med" then is (a_med a) (fun v => opt_eqb Z.eqb (f_med p) v)
  else true.

Lemma keep_filter : forall A (f : A -> fpath -> bool) o d, keep f o d = filter (fun p => match o with Some v => f v p | None => true end) d.
Proof.
  intros A f o d. unfold keep. destruct o as [v|]; [reflexivity|]. induction d as [|x r IH]; [reflexivity|]. cbn [filter]. f_equal. exact IH.
Qed.

Lemma need_selects : forall p, selects fpath (fun st d => need st (filter p d)) p.
Proof.
  intros p st d. unfold need. destruct (filter p d) as [|x r]; [|left; reflexivity]. destruct (String.eqb_spec st "missing") as [E|E]; [left; reflexivity|right; auto].
Qed.

Lemma selects_ext : forall (f g : check fpath) p, (forall st d, f st d = g st d) -> selects fpath g p -> selects fpath f p.
Proof. intros f g p E S st d. rewrite E. apply S. Qed.

Lemma frr_selects : forall a k f, In (k, f) (frr_checks a) -> k <> "community" -> selects fpath f (sel a k).
Proof.
  intros a k f I N. unfold frr_checks in I. cbn [In] in I.
  destruct I as [I|[I|[I|[I|[I|[I|[I|[I|[I|[]]]]]]]]]]; injection I as I1 I2; subst k f; try (exfalso; apply N; reflexivity).
  - intros st d. left. rewrite keep_filter. reflexivity.
  - eapply selects_ext; [|exact (need_selects (sel a "nh"))]. intros st d. cbv beta. rewrite keep_filter. reflexivity.
  - intros st d. left. rewrite keep_filter. reflexivity.
  - eapply selects_ext; [|exact (need_selects (sel a "clusterid"))]. intros st d. cbv beta. rewrite keep_filter. reflexivity.
  - eapply selects_ext; [|exact (need_selects (sel a "as_elements"))]. intros st d. cbv beta. rewrite keep_filter. reflexivity.
  - eapply selects_ext; [|exact (need_selects (sel a "aspath"))]. intros st d. cbv beta. rewrite keep_filter. reflexivity.
  - intros st d. left. rewrite keep_filter. reflexivity.
  - intros st d. left. rewrite keep_filter. reflexivity.
Qed.

Lemma req_In : forall A k (o : option A) q, In q (req k o) <-> q = k /\ exists v, o = Some v.
Proof.
  intros A k o q. unfold req. destruct o as [v|]; cbn [In]; [split; [intros [E|[]]; split; [congruence|exists v; reflexivity]|intros [E _]; left; congruence]|split; [intros []|intros [_ [v Q]]; discriminate Q]].
Qed.

Lemma sel_meets : forall a p, (forall k, In k (frr_kwargs a) -> sel a k p = true) <-> meets a p.
Proof.
  intros a p. unfold frr_kwargs, meets, wants.
  assert (NH : forall v, existsb (fun h => String.eqb h (before_slash v)) (f_nh p) = true <-> exists h, In h (f_nh p) /\ (v = h /\ ~ occurs "/" h \/ exists r, v = (h ++ "/" ++ r)%string /\ ~ occurs "/" h)).
  { intros v. rewrite existsb_exists. split; intros [h [H E]]; exists h; (split; [exact H|]).
    - apply String.eqb_eq in E. apply before_slash_spec. congruence.
    - apply String.eqb_eq. apply before_slash_spec in E. congruence. }
  assert (OB : forall o v, opt_eqb Bool.eqb o v = true <-> o = Some v).
  { intros o v. unfold opt_eqb. destruct o as [x|]; [rewrite eqb_true_iff; split; congruence|split; discriminate]. }
  assert (OZ : forall o v, opt_eqb Z.eqb o v = true <-> o = Some v).
  { intros o v. unfold opt_eqb. destruct o as [x|]; [rewrite Z.eqb_eq; split; congruence|split; discriminate]. }
  assert (CL : forall v, match f_cluster p with Some l => memS v l | None => false end = true <-> exists l, f_cluster p = Some l /\ In v l).
  { intros v. destruct (f_cluster p) as [l|]; [rewrite memS_true; split; [intros H; exists l; auto|intros [x [E X]]; injection E as E; subst x; exact X]|split; [discriminate|intros [x [E _]]; discriminate E]]. }
  split.
  - intros H.
    assert (R : forall A k (o : option A) v, o = Some v -> (forall q, In q (req k o) -> In q (frr_kwargs a)) -> sel a k p = true).
    { intros A k o v E Q. apply H. apply (Q k). apply req_In. split; [reflexivity|exists v; exact E]. }
    unfold frr_kwargs in R.
    split; [intros v E; apply (R _ "peer" _ v) in E as S; [|intros q Q; rewrite !in_app_iff; tauto]; unfold sel in S; cbn [String.eqb Ascii.eqb Bool.eqb] in S; rewrite E in S; apply String.eqb_eq; exact S|].
    split; [intros v E; apply (R _ "nh" _ v) in E as S; [|intros q Q; rewrite !in_app_iff; tauto]; unfold sel in S; cbn [String.eqb Ascii.eqb Bool.eqb] in S; rewrite E in S; apply NH; exact S|].
    split; [intros v E; apply (R _ "best" _ v) in E as S; [|intros q Q; rewrite !in_app_iff; tauto]; unfold sel in S; cbn [String.eqb Ascii.eqb Bool.eqb] in S; rewrite E in S; apply OB; exact S|].
    split; [intros v E; apply (R _ "clusterid" _ v) in E as S; [|intros q Q; rewrite !in_app_iff; tauto]; unfold sel in S; cbn [String.eqb Ascii.eqb Bool.eqb] in S; rewrite E in S; apply CL; exact S|].
    split; [intros v E; apply (R _ "as_elements" _ v) in E as S; [|intros q Q; rewrite !in_app_iff; tauto]; unfold sel in S; cbn [String.eqb Ascii.eqb Bool.eqb] in S; rewrite E in S; apply left_over_nil; exact S|].
    split; [intros v E; apply (R _ "aspath" _ v) in E as S; [|intros q Q; rewrite !in_app_iff; tauto]; unfold sel in S; cbn [String.eqb Ascii.eqb Bool.eqb] in S; rewrite E in S; apply String.eqb_eq; exact S|].
    split; [intros v E; apply (R _ "locpref" _ v) in E as S; [|intros q Q; rewrite !in_app_iff; tauto]; unfold sel in S; cbn [String.eqb Ascii.eqb Bool.eqb] in S; rewrite E in S; apply OZ; exact S|].
    intros v E; apply (R _ "med" _ v) in E as S; [|intros q Q; rewrite !in_app_iff; tauto]; unfold sel in S; cbn [String.eqb Ascii.eqb Bool.eqb] in S; rewrite E in S; apply OZ; exact S.
  - intros [H1 [H2 [H3 [H4 [H5 [H6 [H7 H8]]]]]]] k _. unfold sel.
    destruct (String.eqb k "peer"); [destruct (a_peer a) as [v|]; [apply String.eqb_eq, H1; reflexivity|reflexivity]|].
    destruct (String.eqb k "nh"); [destruct (a_nh a) as [v|]; [apply NH, H2; reflexivity|reflexivity]|].
    destruct (String.eqb k "best"); [destruct (a_best a) as [v|]; [apply OB, H3; reflexivity|reflexivity]|].
    destruct (String.eqb k "clusterid"); [destruct (a_cluster a) as [v|]; [apply CL, H4; reflexivity|reflexivity]|].
    destruct (String.eqb k "as_elements"); [destruct (a_elems a) as [v|]; [apply left_over_nil, H5; reflexivity|reflexivity]|].
    destruct (String.eqb k "aspath"); [destruct (a_aspath a) as [v|]; [apply String.eqb_eq, H6; reflexivity|reflexivity]|].
    destruct (String.eqb k "locpref"); [destruct (a_loc a) as [v|]; [apply OZ, H7; reflexivity|reflexivity]|].
    destruct (String.eqb k "med"); [destruct (a_med a) as [v|]; [apply OZ, H8; reflexivity|reflexivity]|reflexivity].
Qed.

Lemma kwargs_known : forall a, a_comm a = None -> ((forall k, In k (frr_kwargs a) -> In k (map fst (frr_checks a))) <-> forall k, In k (a_extra a) -> In k (map fst (frr_checks a))).
Proof.
  intros a C. split.
  - intros H k K. apply H. unfold frr_kwargs. rewrite !in_app_iff. tauto.
  - intros H k K. unfold frr_kwargs in K. rewrite !in_app_iff, !req_In in K. cbn [frr_checks map fst In].
    destruct K as [[K _]|[[K _]|[[K _]|[[K _]|[[K _]|[[K _]|[[K _]|[[K _]|[[K _]|K]]]]]]]]]; subst; try tauto. apply H in K. exact K.
Qed.

(* without communities and unknown arguments: one path has all requested attributes *)
Theorem frr_prefix_exact : forall st a found, st <> "missing" -> a_comm a = None -> a_extra a = [] ->
  frr_valid_prefix st a found = true <->
  exists data, found = Some data /\ (frr_kwargs a = [] \/ exists p, In p data /\ meets a p).
Proof.
  intros st a found NM C X. unfold frr_valid_prefix.
  assert (NC : ~ In "community" (frr_kwargs a)).
  { unfold frr_kwargs. rewrite X, C. rewrite !in_app_iff, !req_In. intros K. destruct K as [[K _]|[[K _]|[[K _]|[[K _]|[[_ [v K]]|[[K _]|[[K _]|[[K _]|[[K _]|[]]]]]]]]]]; discriminate K. }
  rewrite (prefix_present_exact fpath (sel a) st (frr_kwargs a) (frr_checks a) found NM).
  2:{ intros k f I K. apply frr_selects; [exact I|]. intros Q. subst k. contradiction. }
  assert (KN : forall k, In k (frr_kwargs a) -> In k (map fst (frr_checks a))) by (apply kwargs_known; [exact C|rewrite X; intros k []]).
  split.
  - intros [data [E [_ [Q|[p [P Q]]]]]]; exists data; (split; [exact E|]); [left; exact Q|right; exists p; split; [exact P|apply sel_meets; exact Q]].
  - intros [data [E [Q|[p [P Q]]]]]; exists data; (split; [exact E|]); (split; [exact KN|]); [left; exact Q|right; exists p; split; [exact P|apply sel_meets; exact Q]].
Qed.

(* a text [v] is a part of a community text of a path *)
Definition attached (data : list fpath) (c v : string) : Prop := exists p s, In p data /\ dget c (f_comm p) = Some s /\ occurs v s.

Lemma comm_ok_spec : forall data c v, comm_ok data c v = true <-> attached data c v.
Proof.
  intros data c v. unfold comm_ok, attached. rewrite existsb_exists. split.
  - intros [p [P H]]. destruct (dget c (f_comm p)) as [s|] eqn:G; [|discriminate H]. exists p, s. split; [exact P|]. split; [exact G|apply contains_spec; exact H].
  - intros [p [s [P [G H]]]]. exists p. split; [exact P|]. rewrite G. apply contains_spec. exact H.
Qed.

(* communities without checks of peers, next hops, best paths and clusters: later checks have no effect *)
Theorem frr_community_exact : forall st a data cs, a_comm a = Some cs -> a_peer a = None -> a_nh a = None -> a_best a = None -> a_cluster a = None -> a_extra a = [] ->
  frr_valid_prefix st a (Some data) = true <->
  forall c v, In (c, v) cs -> In c ["community"; "largeCommunity"; "extendedCommunity"] /\ (st = "present" -> attached data c v) /\ (st = "missing" -> ~ attached data c v).
Proof.
  intros st a data cs C A1 A2 A3 A4 X. unfold frr_valid_prefix, run_prefix_checks.
  assert (KN : forallb (fun k => memS k (map fst (frr_checks a))) (frr_kwargs a) = true).
  { apply forallb_forall. intros k K. apply memS_true. unfold frr_kwargs in K. rewrite X in K. rewrite !in_app_iff, !req_In in K. cbn [frr_checks map fst In].
    destruct K as [[K _]|[[K _]|[[K _]|[[K _]|[[K _]|[[K _]|[[K _]|[[K _]|[[K _]|[]]]]]]]]]]; subst; tauto. }
  rewrite KN.
  assert (IN : forall k, In k (frr_kwargs a) -> In k ["community"; "as_elements"; "aspath"; "locpref"; "med"]).
  { intros k K. unfold frr_kwargs in K. rewrite A1, A2, A3, A4, X in K. rewrite !in_app_iff, !req_In in K. cbn [In].
    destruct K as [[_ [v K]]|[[_ [v K]]|[[_ [v K]]|[[_ [v K]]|[[K _]|[[K _]|[[K _]|[[K _]|[[K _]|[]]]]]]]]]]; try discriminate K; subst; tauto. }
  assert (OUT : forall k, ~ In k ["community"; "as_elements"; "aspath"; "locpref"; "med"] -> memS k (frr_kwargs a) = false) by (intros k K; apply memS_false; intros Q; apply K, IN, Q).
  assert (MC : memS "community" (frr_kwargs a) = true).
  { apply memS_true. unfold frr_kwargs. rewrite !in_app_iff. rewrite (req_In _ "community"). assert (Q : exists v, a_comm a = Some v) by (exists cs; exact C). tauto. }
  unfold frr_checks. cbn [run_checks]. rewrite (OUT "peer"), (OUT "nh"), (OUT "best"), (OUT "clusterid") by (cbn [In]; intuition discriminate). rewrite MC, C.
  clear. induction cs as [|[c v] r IH]; cbn [comm_loop]; [split; [intros _ c v []|reflexivity]|].
  assert (STEP : (if negb (memS c community_kw) then false else if String.eqb st "present" && negb (comm_ok data c v) then false else if String.eqb st "missing" && comm_ok data c v then false else comm_loop st data r) = true
    <-> (In c ["community"; "largeCommunity"; "extendedCommunity"] /\ (st = "present" -> attached data c v) /\ (st = "missing" -> ~ attached data c v)) /\ comm_loop st data r = true).
  { pose proof (comm_ok_spec data c v) as O. destruct (memS c community_kw) eqn:K; cbn [negb].
    2:{ apply memS_false in K. split; [discriminate|intros [[Q _] _]; contradiction]. }
    apply memS_true in K. destruct (String.eqb_spec st "present") as [P|P]; cbn [andb].
    - destruct (comm_ok data c v); cbn [negb].
      + destruct (String.eqb_spec st "missing") as [M|M]; [congruence|]. cbn [andb]. split; [intros R; split; [split; [exact K|split; [intros _; apply O; reflexivity|intros Q; contradiction]]|exact R]|intros [_ R]; exact R].
      + split; [discriminate|]. intros [[_ [Q _]] _]. apply O. apply Q. exact P.
    - destruct (String.eqb_spec st "missing") as [M|M]; cbn [andb].
      + destruct (comm_ok data c v); [split; [discriminate|intros [[_ [_ Q]] _]; exfalso; apply (Q M), O; reflexivity]|].
        split; [intros R; split; [split; [exact K|split; [intros Q; contradiction|intros _ Q; apply O in Q; discriminate Q]]|exact R]|intros [_ R]; exact R].
      + split; [intros R; split; [split; [exact K|split; intros Q; contradiction]|exact R]|intros [_ R]; exact R]. }
  rewrite STEP, IH. split.
  - intros [H1 H2] c0 v0 [E|E]; [injection E as E1 E2; subst c0 v0; exact H1|apply H2; exact E].
  - intros H. split; [apply H; left; reflexivity|intros c0 v0 E; apply H; right; exact E].
Qed.

Definition no_args : fargs := mk_fa None None None None None None None None None [].
Definition a_path : fpath := mk_fp "10.0.0.1" ["10.1.0.1"] (Some true) None [("community", "65000:100")] "65100" [[65100%Z]] (Some 100%Z) None.
Definition b_path : fpath := mk_fp "10.0.0.2" ["10.1.0.2"] (Some false) None [] "65200" [[65200%Z]] None None.

(* a prefix without a path with both attributes is not accepted as missing when there is a path with the first one *)
Theorem prefix_missing_refuted :
  let a := mk_fa (Some "10.0.0.1") None None None None None (Some "65200") None None [] in
  (forall p, In p [a_path; b_path] -> ~ meets a p) /\ frr_valid_prefix "missing" a (Some [a_path; b_path]) = false.
Proof.
  cbv zeta. split; [|reflexivity]. intros p P [H1 [_ [_ [_ [_ [H6 _]]]]]]. specialize (H1 _ eq_refl). specialize (H6 _ eq_refl). destruct P as [P|[P|[]]]; subst p; discriminate.
Qed.

(* a community check accepts a longer community, and a wrong AS path beside it *)
Theorem frr_community_refuted :
  frr_valid_prefix "present" (mk_fa None None None None (Some [("community", "65000:10")]) None None None None []) (Some [a_path]) = true
  /\ frr_valid_prefix "present" (mk_fa None None None None (Some [("community", "65000:100")]) None (Some "65300") None None []) (Some [a_path]) = true.
Proof. split; reflexivity. Qed.

Example frr_prefix_case :
  let a := mk_fa None (Some "10.1.0.1/24") (Some true) None None (Some [65100%Z]) (Some "65100") (Some 100%Z) None [] in
  meets a a_path /\ frr_valid_prefix "present" a (Some [b_path; a_path]) = true /\ frr_valid_prefix "present" a (Some [b_path]) = false.
Proof.
  cbv zeta. split; [|split; reflexivity]. apply sel_meets. intros k K. cbn in K. destruct K as [K|[K|[K|[K|[K|[]]]]]]; subst k; reflexivity.
Qed.

Print Assumptions prefix_present_exact.
Print Assumptions prefix_missing_exact.
Print Assumptions frr_prefix_exact.
Print Assumptions frr_community_exact.
Print Assumptions prefix_missing_refuted.
Print Assumptions frr_community_refuted.
