(* Properties of checks of BGP parameters. *)
From Coq Require Import String Ascii ZArith Lia Bool List.
From Verif Require Import Base Box_Model Dev_Model Types_Model Bchk_Model Asg_Props.
Import ListNotations.
Local Open Scope string_scope.
Local Open Scope list_scope.

(* the list meant by a value: true and false stand for lists when there is a true value *)
Inductive means (tv : option (list val)) : val -> list val -> Prop :=
| MNull : means tv VNull []
| MTrue : forall l, tv = Some l -> means tv (VBool true) l
| MFalse : forall l, tv = Some l -> means tv (VBool false) []
| MBool : forall b, tv = None -> means tv (VBool b) [VBool b]
| MInt : forall n, means tv (VInt n) [VInt n]
| MStr : forall s, means tv (VStr s) [VStr s]
| MList : forall l, means tv (VList l) l.

Definition as_list (tv : option (list val)) (v : val) : option (list val) :=
  match v with
  | VNull => Some []
  | VBool b => match tv with Some l => Some (if b then l else []) | None => Some [v] end
  | VInt _ | VStr _ => Some [v]
  | VList l => Some l
  | VDict _ => None
  end.

Lemma as_list_spec : forall tv v l, as_list tv v = Some l <-> means tv v l.
Proof.
  intros tv v l. split.
  - destruct v as [|b|n|s|x|d]; cbn [as_list]; intros H.
    + injection H as H; subst l. constructor.
    + destruct tv as [t|] eqn:T; injection H as H; subst l; [destruct b; [constructor; reflexivity|apply MFalse with (l := t); reflexivity]|constructor; reflexivity].
    + injection H as H; subst l. constructor.
    + injection H as H; subst l. constructor.
    + injection H as H; subst l. constructor.
    + discriminate H.
  - intros M. destruct M as [|l T|l T|b T|n|s|l]; cbn [as_list]; try rewrite T; reflexivity.
Qed.

Lemma as_list_none : forall tv v, as_list tv v = None <-> is_dict v = true.
Proof.
  intros tv v. destruct v as [|b|n|s|x|d]; cbn [as_list is_dict]; try (split; intros H; discriminate H).
  - destruct tv; split; intros H; discriminate H.
  - split; reflexivity.
Qed.

Definition list_errors (values : list val) (l : list val) : list terror :=
  match values with [] => [] | _ => if check_valid_values values (VList l) then [] else [InvalidValue] end.

Lemma tt_list : forall tv values k d v, dget k d = Some v ->
  type_test (must_be_list false) (list_opts (option_map VList tv) values) k d =
  match as_list tv v with None => (d, [WrongType]) | Some l => (dset k (VList l) d, list_errors values l) end.
Proof.
  intros tv values k d v G.
  assert (FIN : forall l (p : dict val), dset k (VList l) p = dset k (VList l) d ->
    match values with [] => (dset k (VList l) p, []) | x :: y => if check_valid_values (x :: y) (VList l) then (dset k (VList l) p, []) else (dset k (VList l) p, [InvalidValue]) end
    = (dset k (VList l) d, list_errors values l)).
  { intros l p E. rewrite E. unfold list_errors. destruct values as [|a r]; [reflexivity|]. destruct (check_valid_values (a :: r) (VList l)); reflexivity. }
  assert (MS : forall x, dmem k (dset k x d) = true) by (intros x; unfold dmem; rewrite dget_dset_same; reflexivity).
  assert (MG : dmem k d = true) by (unfold dmem; rewrite G; reflexivity).
  unfold type_test, get_value_to_check, get_value, list_opts. rewrite G. cbn [t_empty t_false t_create t_true t_values].
  destruct v as [|b|n|s|x|e]; cbn [as_list].
  - destruct tv as [t|]; cbn [option_map]; rewrite MS; cbn [negb must_be_list]; apply FIN; apply dset_twice.
  - destruct tv as [t|]; cbn [option_map].
    + destruct b; rewrite MS; cbn [negb must_be_list]; apply FIN; apply dset_twice.
    + destruct b; rewrite MG; cbn [negb must_be_list]; apply FIN; reflexivity.
  - destruct tv as [t|]; cbn [option_map]; rewrite MG; cbn [negb must_be_list]; apply FIN; reflexivity.
  - destruct tv as [t|]; cbn [option_map]; rewrite MG; cbn [negb must_be_list]; apply FIN; reflexivity.
  - destruct tv as [t|]; cbn [option_map]; rewrite MG; cbn [negb must_be_list]; apply FIN; reflexivity.
  - destruct tv as [t|]; cbn [option_map]; rewrite MG; cbn [negb must_be_list]; reflexivity.
Qed.

Definition conv (good : list string) (tv : option (list val)) (k : string) (v : val) : val :=
  if memS k good then match as_list tv v with Some l => VList l | None => v end else v.
Definition errs_of (good : list string) (tv : option (list val)) (values : list val) (k : string) (v : val) : list berr :=
  if memS k good then map (BadList k) (match as_list tv v with Some l => list_errors values l | None => [WrongType] end) else [BadKey k].

Lemma step_spec : forall good tv values d errs k v, dget k d = Some v ->
  list_step good (list_opts (option_map VList tv) values) (d, errs) k = (dset k (conv good tv k v) d, errs ++ errs_of good tv values k v).
Proof.
  intros good tv values d errs k v G. unfold list_step, conv, errs_of. destruct (memS k good); cbn [fst snd].
  - rewrite (tt_list tv values k d v G). destruct (as_list tv v); cbn [fst snd]; [reflexivity|]. rewrite dset_id by exact G. reflexivity.
  - rewrite dset_id by exact G. reflexivity.
Qed.

Lemma loop_spec : forall good tv values ks d errs, NoDup ks -> (forall k, In k ks -> In k (dkeys d)) ->
  let r := fold_left (list_step good (list_opts (option_map VList tv) values)) ks (d, errs) in
  (forall k, In k ks -> dget k (fst r) = option_map (conv good tv k) (dget k d))
  /\ (forall k, ~ In k ks -> dget k (fst r) = dget k d)
  /\ (forall e, In e (snd r) <-> In e errs \/ exists k v, In k ks /\ dget k d = Some v /\ In e (errs_of good tv values k v)).
Proof.
  intros good tv values. induction ks as [|j ks IH]; intros d errs ND HK; cbv zeta.
  { cbn [fold_left fst snd]. split; [intros k []|]. split; [reflexivity|]. intros e. split; [intros I; left; exact I|]. intros [I|[k [v [[] _]]]]. exact I. }
  apply NoDup_cons_iff in ND. destruct ND as [NJ ND]. cbn [fold_left].
  destruct (dget j d) as [v|] eqn:G; [|exfalso; apply (proj1 (dget_None _ _) G); apply HK; left; reflexivity].
  rewrite (step_spec good tv values d errs j v G).
  set (d1 := dset j (conv good tv j v) d). assert (O : forall k, k <> j -> dget k d1 = dget k d) by (intros k N; apply dget_dset_other; exact N).
  destruct (IH d1 (errs ++ errs_of good tv values j v) ND) as [A [B C]].
  { intros k K. apply dmem_true. unfold dmem. rewrite O by (intros Q; subst k; contradiction). apply dmem_true. apply HK. right. exact K. }
  split; [|split].
  - intros k K. destruct (String.string_dec k j) as [Q|Q].
    + subst k. rewrite B by exact NJ. unfold d1. rewrite dget_dset_same, G. reflexivity.
    + destruct K as [K|K]; [congruence|]. rewrite A by exact K. rewrite O by exact Q. reflexivity.
  - intros k K. rewrite B by (intros Q; apply K; right; exact Q). apply O. intros Q. apply K. left. symmetry. exact Q.
  - intros e. rewrite C. rewrite in_app_iff. split.
    + intros [[I|I]|[k [w [K [H I]]]]].
      * left. exact I.
      * right. exists j, v. split; [left; reflexivity|]. split; [exact G|exact I].
      * right. exists k, w. split; [right; exact K|]. split; [|exact I]. rewrite <- O; [exact H|]. intros Q. subst k. contradiction.
    + intros [I|[k [w [[K|K] [H I]]]]].
      * left. left. exact I.
      * subst k. left. right. rewrite G in H. injection H as H. subst w. exact I.
      * right. exists k, w. split; [exact K|]. split; [|exact I]. rewrite O; [exact H|]. intros Q. subst k. contradiction.
Qed.

(* values are scalars from a list of valid values *)
Definition allowed (values : list val) (x : val) : Prop := exists y, In y values /\ val_eqb x y = true.

Lemma list_errors_nil : forall values l, values <> [] -> (list_errors values l = [] <-> forall x, In x l -> allowed values x).
Proof.
  intros values l NE. unfold list_errors. destruct values as [|a r]; [contradiction NE; reflexivity|].
  destruct (check_valid_values (a :: r) (VList l)) eqn:C; unfold check_valid_values in C.
  - split; [|reflexivity]. intros _ x I. rewrite forallb_forall in C. specialize (C x I). apply existsb_exists in C. exact C.
  - split; [intros H; discriminate H|]. intros H. exfalso. assert (T : forallb (fun x => existsb (val_eqb x) (a :: r)) l = true).
    { apply forallb_forall. intros x I. apply existsb_exists. exact (H x I). }
    congruence.
Qed.

Lemma check_lists_spec : forall good tv values d, NoDup (dkeys d) -> values <> [] ->
  let r := check_lists good (list_opts (option_map VList tv) values) d in
  (forall k, dget k (fst r) = option_map (conv good tv k) (dget k d))
  /\ (snd r = [] <-> forall k v, dget k d = Some v -> In k good /\ exists l, means tv v l /\ forall x, In x l -> allowed values x)
  /\ (existsb fails (snd r) = false <-> forall k v, dget k d = Some v -> In k good /\ exists l, means tv v l).
Proof.
  intros good tv values d ND NE. unfold check_lists. destruct (loop_spec good tv values (dkeys d) d [] ND (fun k H => H)) as [A [B C]]. cbv zeta.
  set (r := fold_left (list_step good (list_opts (option_map VList tv) values)) (dkeys d) (d, [])) in *.
  assert (E : forall e, In e (snd r) <-> exists k v, dget k d = Some v /\ In e (errs_of good tv values k v)).
  { intros e. rewrite C. split.
    - intros [[]|[k [v [_ [G I]]]]]. exists k, v. auto.
    - intros [k [v [G I]]]. right. exists k, v. split; [|auto]. apply dmem_true. unfold dmem. rewrite G. reflexivity. }
  split; [|split].
  - intros k. destruct (in_dec String.string_dec k (dkeys d)) as [I|I]; [apply A; exact I|]. rewrite B by exact I. apply (proj2 (dget_None _ _)) in I. rewrite I. reflexivity.
  - split.
    + intros S k v G. assert (N : errs_of good tv values k v = []).
      { destruct (errs_of good tv values k v) as [|e er] eqn:X; [reflexivity|]. exfalso. assert (I : In e (snd r)) by (apply E; exists k, v; split; [exact G|rewrite X; left; reflexivity]). rewrite S in I. destruct I. }
      unfold errs_of in N. destruct (memS k good) eqn:M; [|discriminate N]. apply memS_true in M. split; [exact M|].
      destruct (as_list tv v) as [l|] eqn:L; [|discriminate N]. exists l. split; [apply as_list_spec; exact L|]. apply list_errors_nil; [exact NE|].
      destruct (list_errors values l); [reflexivity|discriminate N].
    + intros H. destruct (snd r) as [|e er] eqn:S; [reflexivity|]. exfalso. destruct (proj1 (E e) (or_introl eq_refl)) as [k [v [G I]]].
      destruct (H k v G) as [K [l [M V]]]. apply memS_true in K. unfold errs_of in I. rewrite K in I. apply as_list_spec in M. rewrite M in I.
      rewrite (proj2 (list_errors_nil values l NE) V) in I. destruct I.
  - split.
    + intros S k v G. assert (N : forall e, In e (errs_of good tv values k v) -> fails e = false).
      { intros e I. destruct (fails e) eqn:F; [|reflexivity]. assert (X : existsb fails (snd r) = true) by (apply existsb_exists; exists e; split; [apply E; exists k, v; auto|exact F]). congruence. }
      unfold errs_of in N. destruct (memS k good) eqn:M; [|discriminate (N _ (or_introl eq_refl))]. apply memS_true in M. split; [exact M|].
      destruct (as_list tv v) as [l|] eqn:L; [|discriminate (N _ (or_introl eq_refl))]. exists l. apply as_list_spec. exact L.
    + intros H. destruct (existsb fails (snd r)) eqn:X; [|reflexivity]. exfalso. apply existsb_exists in X. destruct X as [e [I F]].
      apply E in I. destruct I as [k [v [G I]]]. destruct (H k v G) as [K [l M]]. apply memS_true in K. apply as_list_spec in M. unfold errs_of in I. rewrite K, M in I.
      apply in_map_iff in I. destruct I as [t [Q I]]. subst e. unfold list_errors in I. destruct values as [|a vs]; [destruct I|].
      destruct (check_valid_values (a :: vs) (VList l)); [destruct I|]. destruct I as [I|[]]. subst t. discriminate F.
Qed.

(* ------------------------------------------------------------------ *)
(* C229: BGP parameters of nodes                                        *)

Lemma asn_test : forall bgp v, dget "as" bgp = Some v ->
  type_test must_be_asn (mk_topts None None None None []) "as" bgp =
  match must_be_asn v with Valid w => (dset "as" w bgp, []) | BadType => (bgp, [WrongType]) | BadValue => (bgp, [WrongValue]) end.
Proof.
  intros bgp v G. unfold type_test, get_value_to_check, get_value. rewrite G. cbn [t_empty t_true t_values].
  assert (M : dmem "as" bgp = true) by (unfold dmem; rewrite G; reflexivity).
  destruct v as [|b|n|s|l|d]; [| destruct b| | | |]; rewrite M; cbn [negb]; destruct (must_be_asn _); reflexivity.
Qed.

(* communities for one kind of sessions *)
Definition community_means (v : val) (k : string) (l : list val) : Prop :=
  (exists s, v = VStr s /\ l = [VStr s]) \/ v = VList l \/ exists d x, v = VDict d /\ dget k d = Some x /\ means None x l.
Definition kind (k : string) : Prop := k = "ibgp" \/ k = "ebgp".

Definition community_shape (v : val) : Prop :=
  (exists s, v = VStr s) \/ (exists l, v = VList l) \/ exists d, v = VDict d /\ forall k x, dget k d = Some x -> kind k /\ exists l, means None x l.

Lemma kind_in : forall k, In k ["ibgp"; "ebgp"] <-> kind k.
Proof. intros k. unfold kind. cbn [In]. split; [intros [H|[H|[]]]; auto|intros [H|H]; auto]. Qed.

(* the dictionary of communities that is checked *)
Lemma community_dict_spec : forall v d, community_dict v = Some d -> (forall e, v = VDict e -> NoDup (dkeys e)) ->
  NoDup (dkeys d)
  /\ (forall k l, kind k -> (exists x, dget k d = Some x /\ means None x l) <-> community_means v k l)
  /\ (community_shape v <-> forall k x, dget k d = Some x -> kind k /\ exists l, means None x l).
Proof.
  intros v d H ND.
  assert (TWO : forall x l0, means None x l0 -> (forall l, means None x l -> l = l0) ->
    NoDup (dkeys [("ibgp", x); ("ebgp", x)]) /\ (forall k l, kind k -> (exists y, dget k [("ibgp", x); ("ebgp", x)] = Some y /\ means None y l) <-> l = l0)
    /\ forall k y, dget k [("ibgp", x); ("ebgp", x)] = Some y -> kind k /\ exists l, means None y l).
  { intros x l0 M U. split; [repeat constructor; cbn [dkeys map fst In]; intuition discriminate|]. split.
    - intros k l K. assert (G : dget k [("ibgp", x); ("ebgp", x)] = Some x) by (destruct K as [K|K]; subst k; reflexivity). split.
      + intros [y [Q Y]]. rewrite G in Q. injection Q as Q. subst y. apply U. exact Y.
      + intros Q. subst l. exists x. auto.
    - intros k y G. pose proof (dget_In _ _ G) as I. destruct I as [I|[I|[]]]; injection I as I1 I2; subst k y; (split; [|exists l0; exact M]); [left|right]; reflexivity. }
  destruct v as [|b|n|s|l0|d0]; try discriminate H; cbn [community_dict] in H; injection H as H; subst d.
  - destruct (TWO (VList [VStr s]) [VStr s] (MList _ _)) as [A [B C]]; [intros l M; inversion M; reflexivity|]. split; [exact A|]. split.
    + intros k l K. rewrite (B k l K). unfold community_means. split.
      * intros Q. left. exists s. auto.
      * intros [[s' [Q1 Q2]]|[Q|[d [x [Q _]]]]]; [|discriminate Q|discriminate Q]. injection Q1 as Q1. subst s'. exact Q2.
    + split; [intros _; exact C|]. intros _. left. exists s. reflexivity.
  - destruct (TWO (VList l0) l0 (MList _ _)) as [A [B C]]; [intros l M; inversion M; reflexivity|]. split; [exact A|]. split.
    + intros k l K. rewrite (B k l K). unfold community_means. split.
      * intros Q. right. left. subst l. reflexivity.
      * intros [[s' [Q1 Q2]]|[Q|[d [x [Q _]]]]]; [discriminate Q1| |discriminate Q]. injection Q as Q. symmetry. exact Q.
    + split; [intros _; exact C|]. intros _. right. left. exists l0. reflexivity.
  - split; [apply ND; reflexivity|]. split.
    + intros k l K. unfold community_means. split.
      * intros [x [G M]]. right. right. exists d0, x. auto.
      * intros [[s' [Q1 Q2]]|[Q|[d [x [Q [G M]]]]]]; [discriminate Q1|discriminate Q|]. injection Q as Q. subst d. exists x. auto.
    + unfold community_shape. split.
      * intros [[s Q]|[[l Q]|[d [Q C]]]]; [discriminate Q|discriminate Q|]. injection Q as Q. subst d. exact C.
      * intros C. right. right. exists d0. auto.
Qed.

Lemma means_fun : forall tv v l l', means tv v l -> means tv v l' -> l = l'.
Proof. intros tv v l l' A B. apply as_list_spec in A, B. congruence. Qed.

(* nothing is reported exactly for a valid AS number and valid communities; the result has the number and lists of communities *)
Theorem bgp_parameters_exact : forall values bgp, values <> [] ->
  (forall e, dget "community" bgp = Some (VDict e) -> NoDup (dkeys e)) ->
  let r := check_bgp_parameters values bgp in
  (snd r = [] <->
     (exists v w, dget "as" bgp = Some v /\ must_be_asn v = Valid w)
     /\ forall v, dget "community" bgp = Some v ->
          community_shape v /\ forall k l x, kind k -> community_means v k l -> In x l -> allowed values x)
  /\ (snd r = [] ->
        (forall v w, dget "as" bgp = Some v -> must_be_asn v = Valid w -> dget "as" (fst r) = Some w)
        /\ (forall v, dget "community" bgp = Some v -> exists c, dget "community" (fst r) = Some (VDict c)
              /\ (forall k, ~ kind k -> dget k c = None)
              /\ forall k l, kind k -> (dget k c = Some (VList l) <-> community_means v k l))
        /\ (dget "community" bgp = None -> dget "community" (fst r) = None))
  /\ (forall k, k <> "as" -> k <> "community" -> dget k (fst r) = dget k bgp)
  /\ (dget "as" bgp = None -> r = (bgp, [NoAS])).
Proof.
  intros values bgp NE ND r. subst r. unfold check_bgp_parameters. unfold dmem. destruct (dget "as" bgp) as [a|] eqn:GA; cbn [negb].
  2:{ cbn [fst snd]. split; [|split; [|split]].
      - split; [intros H; discriminate H|]. intros [[v [w [H _]]] _]. discriminate H.
      - intros H. discriminate H.
      - reflexivity.
      - reflexivity. }
  rewrite (asn_test bgp a GA). cbv zeta.
  set (r1 := match must_be_asn a with Valid w => (dset "as" w bgp, []) | BadType => (bgp, [WrongType]) | BadValue => (bgp, [WrongValue]) end).
  assert (OTH : forall k, k <> "as" -> dget k (fst r1) = dget k bgp).
  { intros k N. unfold r1. destruct (must_be_asn a); cbn [fst]; [apply dget_dset_other; exact N|reflexivity|reflexivity]. }
  assert (EA : map BadAS (snd r1) = [] <-> exists v w, Some a = Some v /\ must_be_asn v = Valid w).
  { unfold r1. destruct (must_be_asn a) as [w| |] eqn:MA; cbn [snd map].
    - split; [intros _; exists a, w; auto|reflexivity].
    - split; [intros H; discriminate H|]. intros [v [w [Q V]]]. injection Q as Q. subst v. congruence.
    - split; [intros H; discriminate H|]. intros [v [w [Q V]]]. injection Q as Q. subst v. congruence. }
  assert (GW : forall v w, Some a = Some v -> must_be_asn v = Valid w -> dget "as" (fst r1) = Some w).
  { intros v w Q V. injection Q as Q. subst v. unfold r1. rewrite V. cbn [fst]. apply dget_dset_same. }
  rewrite (OTH "community") by discriminate. destruct (dget "community" bgp) as [v|] eqn:GC.
  2:{ cbn [fst snd]. split; [|split; [|split]].
      - rewrite EA. split; [intros H; split; [exact H|intros v Q; discriminate Q]|intros [H _]; exact H].
      - intros _. split; [exact GW|]. split; [intros v Q; discriminate Q|]. intros _. rewrite OTH by discriminate. exact GC.
      - intros k N _. apply OTH. exact N.
      - intros Q. discriminate Q. }
  destruct (community_dict v) as [d|] eqn:CD.
  2:{ cbn [fst snd]. split; [|split; [|split]].
      - split; [intros H; apply app_eq_nil in H; destruct H as [_ H]; discriminate H|]. intros [_ H]. destruct (H v eq_refl) as [SH _].
        exfalso. destruct SH as [[s Q]|[[l Q]|[d [Q _]]]]; subst v; discriminate CD.
      - intros H. apply app_eq_nil in H. destruct H as [_ H]. discriminate H.
      - intros k N _. apply OTH. exact N.
      - intros Q. discriminate Q. }
  destruct (community_dict_spec v d CD) as [NDD [CM CS]]; [intros e Q; apply ND; rewrite Q; reflexivity|].
  pose proof (check_lists_spec ["ibgp"; "ebgp"] None values d NDD NE) as CL. cbv zeta in CL. cbn [option_map] in CL. destruct CL as [LG [LE _]].
  set (c := check_lists ["ibgp"; "ebgp"] (list_opts None values) d) in *. cbn [fst snd].
  assert (EC : snd c = [] <-> community_shape v /\ forall k l x, kind k -> community_means v k l -> In x l -> allowed values x).
  { rewrite LE, CS. split.
    - intros H. split.
      + intros k x G. destruct (H k x G) as [K [l [M _]]]. split; [apply kind_in; exact K|exists l; exact M].
      + intros k l x K M I. apply CM in M; [|exact K]. destruct M as [y [G M]]. destruct (H k y G) as [_ [l' [M' V]]].
        rewrite (means_fun _ _ _ _ M M') in I. apply V. exact I.
    - intros [H1 H2] k x G. destruct (H1 k x G) as [K [l M]]. split; [apply kind_in; exact K|]. exists l. split; [exact M|].
      intros y I. apply (H2 k l y K); [|exact I]. apply CM; [exact K|]. exists x. auto. }
  split; [|split; [|split]].
  - split.
    + intros H. apply app_eq_nil in H. destruct H as [H1 H2]. split; [apply EA; exact H1|]. intros x Q. injection Q as Q. subst x. apply EC. exact H2.
    + intros [H1 H2]. rewrite (proj2 EA H1). cbn [app]. apply EC. apply H2. reflexivity.
  - intros H. apply app_eq_nil in H. destruct H as [H1 H2]. split; [|split].
    + intros x w Q V. rewrite dget_dset_other by discriminate. exact (GW x w Q V).
    + intros x Q. injection Q as Q. subst x. exists (fst c). split; [apply dget_dset_same|].
      pose proof (proj1 LE H2) as LE2. split.
      * intros k NK. rewrite LG. destruct (dget k d) as [x|] eqn:G; [|reflexivity]. exfalso. apply NK. apply kind_in. exact (proj1 (LE2 k x G)).
      * intros k l K. rewrite <- (CM k l K). rewrite LG. unfold conv. rewrite (proj2 (memS_true _ _) (proj2 (kind_in k) K)). destruct (dget k d) as [x|] eqn:G; cbn [option_map].
        -- destruct (LE2 k x G) as [_ [l' [M' _]]]. rewrite (proj2 (as_list_spec None x l') M'). split.
           ++ intros Q. injection Q as Q. subst l'. exists x. auto.
           ++ intros [y [Q M]]. injection Q as Q. subst y. rewrite (means_fun _ _ _ _ M M'). reflexivity.
        -- split; [intros Q; discriminate Q|]. intros [y [Q _]]. discriminate Q.
    + intros Q. discriminate Q.
  - intros k N1 N2. rewrite dget_dset_other by exact N2. apply OTH. exact N1.
  - intros Q. discriminate Q.
Qed.

Definition ex_values : list val := map VStr ["standard"; "extended"; "large"; "2octet"].
Example bgp_parameters_case :
  check_bgp_parameters ex_values [("as", VStr "1.1"); ("community", VStr "standard"); ("rr", VBool true)] =
    ([("as", VInt 65537); ("community", VDict [("ibgp", VList [VStr "standard"]); ("ebgp", VList [VStr "standard"])]); ("rr", VBool true)], [])
  /\ check_bgp_parameters ex_values [("as", VInt 65000); ("community", VDict [("ibgp", VStr "large"); ("vrf", VNull); ("ebgp", VList [VStr "x"])])] =
    ([("as", VInt 65000); ("community", VDict [("ibgp", VList [VStr "large"]); ("vrf", VNull); ("ebgp", VList [VStr "x"])])], [BadKey "vrf"; BadList "ebgp" InvalidValue]).
Proof. split; vm_compute; reflexivity. Qed.

(* ------------------------------------------------------------------ *)
(* C230: validation of session types                                    *)

Definition all_types : list val := [VStr "ibgp"; VStr "ebgp"; VStr "localas_ibgp"].
Definition family (k : string) : Prop := k = "ipv4" \/ k = "ipv6".

(* the result is true exactly when there are only address families with values that mean lists; nothing is reported exactly when these
   lists contain only session types; values of address families become these lists *)
Theorem session_validation_exact : forall d, NoDup (dkeys d) ->
  let r := validate_bgp_sessions d in
  (snd r = true <-> forall k v, dget k d = Some v -> family k /\ exists l, means (Some all_types) v l)
  /\ (snd (fst r) = [] <-> forall k v, dget k d = Some v -> family k /\ exists l, means (Some all_types) v l /\ forall x, In x l -> allowed all_types x)
  /\ (forall k v l, dget k d = Some v -> family k -> means (Some all_types) v l -> dget k (fst (fst r)) = Some (VList l))
  /\ (forall k, (~ family k \/ exists e, dget k d = Some (VDict e)) -> dget k (fst (fst r)) = dget k d)
  /\ (forall k, dget k d = None -> dget k (fst (fst r)) = None).
Proof.
  intros d ND r. unfold r, validate_bgp_sessions. cbv zeta. cbn [fst snd].
  assert (NE : all_types <> []) by discriminate.
  pose proof (check_lists_spec ["ipv4"; "ipv6"] (Some all_types) all_types d ND NE) as CL. cbv zeta in CL. cbn [option_map] in CL.
  change session_types with all_types. destruct CL as [LG [LE LF]].
  assert (F : forall k, In k ["ipv4"; "ipv6"] <-> family k) by (intros k; unfold family; cbn [In]; split; [intros [H|[H|[]]]; auto|intros [H|H]; auto]).
  split; [|split; [|split; [|split]]].
  - rewrite negb_true_iff, LF. split; intros H k v G; destruct (H k v G) as [K M]; (split; [apply F; exact K|exact M]).
  - rewrite LE. split; intros H k v G; destruct (H k v G) as [K M]; (split; [apply F; exact K|exact M]).
  - intros k v l G K M. rewrite LG, G. cbn [option_map]. unfold conv. rewrite (proj2 (memS_true _ _) (proj2 (F k) K)), (proj2 (as_list_spec _ _ _) M). reflexivity.
  - intros k H. rewrite LG. destruct (dget k d) as [v|] eqn:G; [|reflexivity]. cbn [option_map]. unfold conv. destruct (memS k ["ipv4"; "ipv6"]) eqn:M; [|reflexivity].
    destruct H as [H|[e H]]; [exfalso; apply H; apply F; apply memS_true; exact M|]. injection H as H. subst v. reflexivity.
  - intros k G. rewrite LG, G. reflexivity.
Qed.

(* the result is true for a session type that does not exist, though the error is reported *)
Theorem session_types_valid_refuted : exists d, NoDup (dkeys d) /\ snd (validate_bgp_sessions d) = true
  /\ dget "ipv4" (fst (fst (validate_bgp_sessions d))) = Some (VList [VStr "confed"]) /\ snd (fst (validate_bgp_sessions d)) = [BadList "ipv4" InvalidValue].
Proof. exists [("ipv4", VStr "confed")]. split; [repeat constructor; intros []|]. repeat split; vm_compute; reflexivity. Qed.

Example session_validation_case :
  validate_bgp_sessions [("ipv4", VBool true); ("ipv6", VStr "ebgp")] = ([("ipv4", VList all_types); ("ipv6", VList [VStr "ebgp"])], [], true)
  /\ snd (validate_bgp_sessions [("ipv4", VBool false); ("vpnv4", VBool true)]) = false.
Proof. split; vm_compute; reflexivity. Qed.

Print Assumptions bgp_parameters_exact.
Print Assumptions session_validation_exact.
Print Assumptions session_types_valid_refuted.
