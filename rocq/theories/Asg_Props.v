(* Properties C191-C196: named prefixes, prefix parsing, link prefixes and gateways, unnumbered interfaces, unused address families. *)
From Coq Require Import String Ascii ZArith Lia Bool List.
From Verif Require Import Base Box_Model Box_Props Asg_Model.
Import ListNotations.
Local Open Scope string_scope.
Local Open Scope list_scope.

Lemma madd_mdict : forall a b, madd a b = mdict a b.
Proof. intros a b. unfold madd. rewrite merge_dicts. reflexivity. Qed.

Lemma dset_id : forall {A} k (v : A) d, dget k d = Some v -> dset k v d = d.
Proof.
  intros A k v d. induction d as [|[k0 v0] d IH]; intros H; [discriminate H|]. cbn [dget] in H. cbn [dset]. destruct (String.eqb k k0) eqn:E.
  - injection H as H. subst v0. apply String.eqb_eq in E. subst k0. reflexivity.
  - rewrite (IH H). reflexivity.
Qed.

Lemma dset_twice : forall {A} k (v w : A) d, dset k v (dset k w d) = dset k v d.
Proof.
  intros A k v w d. induction d as [|[k0 v0] d IH]; cbn [dset].
  - rewrite String.eqb_refl. reflexivity.
  - destruct (String.eqb k k0) eqn:E; cbn [dset]; rewrite ?String.eqb_refl, ?E; [reflexivity|rewrite IH; reflexivity].
Qed.

Section Named.
Variable known : string -> bool.
Variable alloc : string -> nat -> dict val.

(* a named prefix uses a pool of the topology; it uses a pool that does not exist *)
Definition good_pool (d : dict val) (p : string) : Prop := dget "pool" d = Some (VStr p) /\ known p = true.
Definition bad_pool (d : dict val) : Prop := exists v, dget "pool" d = Some v /\ forall p, v = VStr p -> known p = false.

(* the value of a named prefix that got a prefix from a pool *)
Definition filled (n : string) (d a d' : dict val) : Prop :=
  dget "pool" d' = None /\
  (forall k, k <> "pool" -> k <> "_name" -> dget k a = None -> dget k d' = dget k d) /\
  (dget "_name" a = None -> dget "_name" d' = Some (VStr n)) /\
  (forall k w, k <> "pool" -> dget k a = Some w -> is_dict w = false -> dget k d' = Some w).

(* only the name was added *)
Definition named (n : string) (d d' : dict val) : Prop := dget "_name" d' = Some (VStr n) /\ forall k, k <> "_name" -> dget k d' = dget k d.

Definition pool_of (x : string * dict val) : list string := match dget "pool" (snd x) with Some (VStr p) => if known p then [p] else [] | _ => [] end.
Definition err_of (x : string * dict val) : list string :=
  match dget "pool" (snd x) with Some (VStr p) => if known p then [] else [fst x] | Some _ => [fst x] | None => [] end.
Definition fin (log : list string) (n : string) (d : dict val) : dict val :=
  match dget "pool" d with
  | None => d
  | Some (VStr p) => if known p then dpop "pool" (madd (dset "_name" (VStr n) d) (alloc p (uses p log))) else dset "_name" (VStr n) d
  | Some _ => dset "_name" (VStr n) d
  end.

Lemma evaluate_eq : forall s n d, dget n (ns_pfx s) = Some d -> dmem "pool" d = true ->
  fst (evaluate known alloc s n) = mk_ns (dset n (fin (ns_log s) n d) (ns_pfx s)) (ns_log s ++ pool_of (n, d)) (ns_err s ++ err_of (n, d)).
Proof.
  intros s n d D M. unfold evaluate, fin, pool_of, err_of. rewrite D. cbn [fst snd]. rewrite dget_dset_other by discriminate.
  destruct (dget "pool" d) as [v|] eqn:P; [|apply dget_None in P; apply dmem_true in M; contradiction].
  destruct v as [|b|z|p|l|q]; cbn [fst]; rewrite ?app_nil_r; try reflexivity. destruct (known p); cbn [fst]; rewrite ?app_nil_r; [rewrite dset_twice; reflexivity|reflexivity].
Qed.

Record np_inv (pfx l : dict (dict val)) (s : nstate) : Prop := {
  nq_keys : dkeys (ns_pfx s) = dkeys pfx;
  nq_done : forall l1 n d l2, l = l1 ++ (n, d) :: l2 -> dget n (ns_pfx s) = Some (fin (flat_map pool_of l1) n d);
  nq_rest : forall n, ~ In n (dkeys l) -> dget n (ns_pfx s) = dget n pfx;
  nq_log : ns_log s = flat_map pool_of l;
  nq_err : ns_err s = flat_map err_of l
}.

Lemma snoc_cases : forall {A} (l l1 l2 : list A) x y, l ++ [x] = l1 ++ y :: l2 -> (l2 = [] /\ l = l1 /\ x = y) \/ (exists m, l2 = m ++ [x] /\ l = l1 ++ y :: m).
Proof.
  intros A l l1 l2 x y H. destruct l2 as [|z l2] using rev_ind.
  - left. apply app_inj_tail in H. destruct H as [H1 H2]. repeat split; assumption.
  - right. exists l2. rewrite app_comm_cons, app_assoc in H. apply app_inj_tail in H. destruct H as [H1 H2]. subst z. split; [reflexivity|exact H1].
Qed.

Lemma np_inv_all : forall l r, NoDup (dkeys (l ++ r)) -> np_inv (l ++ r) l (fold_left (setup_step known alloc) l (mk_ns (l ++ r) [] [])).
Proof.
  intros l. induction l as [|[n d] l IH] using rev_ind; intros r ND.
  - cbn [fold_left app]. split; cbn [ns_pfx ns_log ns_err]; try reflexivity. intros l1 n d l2 E. destruct l1; discriminate E.
  - rewrite fold_left_app. cbn [fold_left]. rewrite <- app_assoc in *. cbn [app] in *. specialize (IH ((n, d) :: r) ND).
    set (s := fold_left (setup_step known alloc) l (mk_ns (l ++ (n, d) :: r) [] [])) in *. clearbody s. destruct IH as [A B C D E].
    assert (NI : ~ In n (dkeys l)).
    { unfold dkeys in ND |- *. rewrite map_app in ND. cbn [map fst] in ND. apply NoDup_remove_2 in ND. intros K. apply ND. apply in_or_app. left. exact K. }
    assert (DN : dget n (ns_pfx s) = Some d).
    { rewrite (C n NI). apply dget_NoDup; [exact ND|]. apply in_or_app. right. left. reflexivity. }
    unfold setup_step. cbn [fst snd].
    assert (NEQ : forall l1 m e l2, l = l1 ++ (m, e) :: l2 -> m <> n).
    { intros l1 m e l2 Q K. subst m. apply NI. rewrite Q. unfold dkeys. rewrite map_app. apply in_or_app. right. left. reflexivity. }
    destruct (dmem "pool" d) eqn:M.
    + rewrite (evaluate_eq s n d DN M). split; cbn [ns_pfx ns_log ns_err].
      * rewrite dkeys_dset_mem; [exact A|]. apply dget_Some_key in DN. exact DN.
      * intros l1 m e l2 Q. destruct (snoc_cases _ _ _ _ _ Q) as [[_ [Q1 Q2]]|[x [_ Q2]]].
        -- injection Q2 as Q2 Q3. subst m e l1. rewrite dget_dset_same, D. reflexivity.
        -- rewrite dget_dset_other by (exact (NEQ _ _ _ _ Q2)). exact (B _ _ _ _ Q2).
      * intros m K. unfold dkeys in K. rewrite map_app in K. assert (Q : m <> n) by (intros Q; subst m; apply K; apply in_or_app; right; left; reflexivity). rewrite dget_dset_other by exact Q. apply C. intros I. apply K. apply in_or_app. left. exact I.
      * rewrite D, flat_map_app. cbn [flat_map]. rewrite app_nil_r. reflexivity.
      * rewrite E, flat_map_app. cbn [flat_map]. rewrite app_nil_r. reflexivity.
    + assert (NP : dget "pool" d = None) by (apply dget_None; intros K; apply dmem_true in K; rewrite K in M; discriminate M). split.
      * exact A.
      * intros l1 m e l2 Q. destruct (snoc_cases _ _ _ _ _ Q) as [[_ [Q1 Q2]]|[x [_ Q2]]].
        -- injection Q2 as Q2 Q3. subst m e l1. unfold fin. rewrite NP. exact DN.
        -- exact (B _ _ _ _ Q2).
      * intros m K. apply C. intros I. apply K. unfold dkeys in *. rewrite map_app. apply in_or_app. left. exact I.
      * rewrite flat_map_app. cbn [flat_map]. unfold pool_of at 2. cbn [snd]. rewrite NP, !app_nil_r. exact D.
      * rewrite flat_map_app. cbn [flat_map]. unfold err_of at 2. cbn [snd]. rewrite NP, !app_nil_r. exact E.
Qed.

Lemma filled_madd : forall n d a, NoDup (dkeys a) -> filled n d a (dpop "pool" (madd (dset "_name" (VStr n) d) a)).
Proof.
  intros n d a ND. rewrite madd_mdict. unfold filled. split; [apply dget_dpop_same|]. split; [|split].
  - intros k K1 K2 A. rewrite dget_dpop_other by exact K1. rewrite dget_mdict by exact ND. rewrite A, dget_dset_other by exact K2. unfold mopt. destruct (dget k d); reflexivity.
  - intros A. rewrite dget_dpop_other by discriminate. rewrite dget_mdict by exact ND. rewrite A, dget_dset_same. reflexivity.
  - intros k w K A W. rewrite dget_dpop_other by exact K. rewrite dget_mdict by exact ND. rewrite A. unfold mopt. destruct (dget k (dset "_name" (VStr n) d)) as [u|]; [|reflexivity]. rewrite merge_scalar_r by exact W. reflexivity.
Qed.

(* After the setup every named prefix that uses a pool has the next prefix of that pool: pools are used in the order of named
   prefixes. Prefixes with unknown pools are reported in order. *)
Theorem setup_prefixes_exact : forall pfx s, NoDup (dkeys pfx) -> (forall p k, NoDup (dkeys (alloc p k))) -> setup_prefixes known alloc pfx = s ->
  dkeys (ns_pfx s) = dkeys pfx /\
  (forall before n d after, pfx = before ++ (n, d) :: after -> exists d', dget n (ns_pfx s) = Some d' /\
     (dget "pool" d = None -> d' = d) /\
     (forall p, good_pool d p -> exists earlier, filled n d (alloc p (length (filter earlier before))) d' /\ forall x, In x before -> (earlier x = true <-> dget "pool" (snd x) = Some (VStr p))) /\
     (bad_pool d -> named n d d')) /\
  (exists sel, ns_err s = map fst (filter sel pfx) /\ forall x, In x pfx -> (sel x = true <-> bad_pool (snd x))).
Proof.
  intros pfx s ND NA H. pose proof (np_inv_all pfx [] ltac:(rewrite app_nil_r; exact ND)) as I. rewrite app_nil_r in I. unfold setup_prefixes in H. rewrite H in I. destruct I as [A B C D E]. split; [exact A|]. split.
  - intros before n d after Q. exists (fin (flat_map pool_of before) n d). split; [exact (B _ _ _ _ Q)|]. unfold fin. split; [intros N; rewrite N; reflexivity|]. split.
    + intros p [P K]. rewrite P, K. exists (fun x => match dget "pool" (snd x) with Some (VStr q) => String.eqb p q | _ => false end). split.
      * replace (length (filter _ before)) with (uses p (flat_map pool_of before)); [apply filled_madd; apply NA|].
        unfold uses. clear -K. induction before as [|x l IH]; [reflexivity|]. cbn [flat_map filter]. rewrite filter_app, app_length, IH. unfold pool_of at 1. destruct (dget "pool" (snd x)) as [[|b|z|q|m|w]|]; try reflexivity.
        destruct (String.eqb_spec p q) as [PQ|PQ]; [subst q; rewrite K; cbn [filter]; rewrite String.eqb_refl; reflexivity|]. destruct (known q); [|reflexivity]. cbn [filter]. apply String.eqb_neq in PQ. rewrite PQ. reflexivity.
      * intros x _. destruct (dget "pool" (snd x)) as [[|b|z|q|m|w]|]; try (split; [discriminate|intros K2; discriminate K2]). rewrite String.eqb_eq. split; [intros K2; subst q; reflexivity|intros K2; injection K2 as K2; symmetry; exact K2].
    + intros [v [P K]]. rewrite P. assert (N : named n d (dset "_name" (VStr n) d)) by (split; [apply dget_dset_same|intros k KN; apply dget_dset_other; exact KN]). destruct v as [|b|z|q|m|w]; try exact N. rewrite (K q eq_refl). exact N.
  - exists (fun x => match err_of x with [] => false | _ => true end). split.
    + rewrite E. clear. induction pfx as [|x l IH]; [reflexivity|]. cbn [flat_map filter]. rewrite IH. unfold err_of at 1 3. destruct (dget "pool" (snd x)) as [[|b|z|q|m|w]|]; try reflexivity. destruct (known q); reflexivity.
    + intros x _. unfold err_of, bad_pool. destruct (dget "pool" (snd x)) as [v|]; [|split; [discriminate|intros [v [K _]]; discriminate K]].
      destruct v as [|b|z|q|m|w]; try (split; [intros _; eexists; split; [reflexivity|intros p K; discriminate K]|reflexivity]). destruct (known q) eqn:K.
      * split; [discriminate|]. intros [v [V N]]. injection V as V. subst v. rewrite (N q eq_refl) in K. discriminate K.
      * split; [|reflexivity]. intros _. exists (VStr q). split; [reflexivity|]. intros p Q. injection Q as Q. subst p. exact K.
Qed.

(* A named prefix has the same value wherever it is used: evaluating it again changes nothing, and evaluating it does not change
   other named prefixes. *)
Theorem named_prefix_stable : forall s n s1 r, (forall p k, NoDup (dkeys (alloc p k)) /\ dget "_name" (alloc p k) = None) ->
  evaluate known alloc s n = (s1, r) -> ns_err s1 = ns_err s ->
  evaluate known alloc s1 n = (s1, r) /\ (forall m, m <> n -> dget m (ns_pfx s1) = dget m (ns_pfx s)) /\
  (In n (dkeys (ns_pfx s)) -> dget n (ns_pfx s1) = Some r /\ dget "pool" r = None /\ dget "_name" r = Some (VStr n)).
Proof.
  intros s n s1 r NA H NE. assert (APP : forall (l : list string) x, l ++ [x] = l -> False) by (intros l x K; apply (f_equal (@length _)) in K; rewrite app_length in K; cbn [length] in K; lia).
  assert (DONE : forall s2 d, dget n (ns_pfx s2) = Some d -> dget "pool" d = None -> dget "_name" d = Some (VStr n) -> evaluate known alloc s2 n = (s2, d)).
  { intros s2 d D P N. unfold evaluate. rewrite D, (dset_id _ _ _ N), P, (dset_id _ _ _ D). destruct s2; reflexivity. }
  unfold evaluate in H. destruct (dget n (ns_pfx s)) as [d|] eqn:D.
  - rewrite dget_dset_other in H by discriminate. destruct (dget "pool" d) as [v|] eqn:P.
    + assert (BAD : (mk_ns (dset n (dset "_name" (VStr n) d) (ns_pfx s)) (ns_log s) (ns_err s ++ [n]), []) = (s1, r) -> False) by (intros K; injection K as K1 K2; subst s1; cbn [ns_err] in NE; exact (APP _ _ NE)).
      destruct v as [|b|z|p|l|q]; try (exfalso; exact (BAD H)). destruct (known p); [|exfalso; exact (BAD H)]. clear BAD. injection H as H1 H2.
      destruct (NA p (uses p (ns_log s))) as [NA1 NA2]. destruct (filled_madd n d _ NA1) as [F1 [_ [F3 _]]]. rewrite H2 in *. specialize (F3 NA2).
      assert (G : dget n (ns_pfx s1) = Some r) by (subst s1; cbn [ns_pfx]; apply dget_dset_same).
      split; [apply DONE; assumption|]. split.
      * intros m M. subst s1. cbn [ns_pfx]. rewrite !dget_dset_other by exact M. reflexivity.
      * intros _. repeat split; assumption.
    + injection H as H1 H2. subst s1 r. cbn [ns_pfx].
      assert (P1 : dget "pool" (dset "_name" (VStr n) d) = None) by (rewrite dget_dset_other by discriminate; exact P).
      split; [|split].
      * apply DONE; cbn [ns_pfx]; [apply dget_dset_same|exact P1|apply dget_dset_same].
      * intros m M. apply dget_dset_other. exact M.
      * intros _. split; [apply dget_dset_same|]. split; [exact P1|apply dget_dset_same].
  - injection H as H1 H2. subst s1 r. split; [unfold evaluate; rewrite D; reflexivity|]. split; [reflexivity|]. intros K. apply dget_None in D. contradiction.
Qed.

Variable net4 : string -> option string.
Variable net : val -> option string.

Definition is_bool (v : val) : Prop := exists b, v = VBool b.
Definition is_af (k : string) : Prop := k = "ipv4" \/ k = "ipv6".

(* the value of an attribute after parsing *)
Definition converted (k : string) (v w : val) : Prop :=
  (is_af k -> (is_bool v /\ w = v) \/ (~ is_bool v /\ exists t, net v = Some t /\ w = VStr t)) /\ (~ is_af k -> w = v).

Lemma parse_attr_iff : forall k v w, parse_attr net (k, v) = Some w <-> converted k v w.
Proof.
  intros k v w. unfold parse_attr, converted. cbn [fst snd]. destruct (memS k ["ipv4"; "ipv6"]) eqn:M.
  - apply memS_true in M. assert (A : is_af k) by (destruct M as [M|[M|[]]]; [left|right]; symmetry; exact M).
    assert (G : forall o, match net o with Some t => Some (VStr t) | None => None end = Some w <-> exists t, net o = Some t /\ w = VStr t).
    { intros o. destruct (net o) as [t|]; [split; [intros E; injection E as E; exists t; split; [reflexivity|symmetry; exact E]|intros [u [E1 E2]]; injection E1 as E1; subst u w; reflexivity]|split; [discriminate|intros [t [E _]]; discriminate E]]. }
    assert (NB : forall o, (forall b, o <> VBool b) -> (match net o with Some t => Some (VStr t) | None => None end = Some w <-> (is_af k -> is_bool o /\ w = o \/ ~ is_bool o /\ exists t, net o = Some t /\ w = VStr t) /\ (~ is_af k -> w = o))).
    { intros o NO. rewrite G. split.
      - intros K. split; [intros _; right; split; [intros [b B]; exact (NO b B)|exact K]|contradiction].
      - intros [K _]. destruct (K A) as [[[b B] _]|[_ K2]]; [exfalso; exact (NO b B)|exact K2]. }
    destruct v as [|b|z|s|l|d]; try (apply NB; intros b; discriminate). split.
    + intros E. injection E as E. subst w. split; [intros _; left; split; [exists b; reflexivity|reflexivity]|contradiction].
    + intros [K _]. destruct (K A) as [[_ E]|[N _]]; [rewrite E; reflexivity|exfalso; apply N; exists b; reflexivity].
  - apply memS_false in M. assert (A : ~ is_af k) by (intros [K|K]; apply M; rewrite K; [left|right; left]; reflexivity). split.
    + intros E. injection E as E. subst w. split; [contradiction|reflexivity].
    + intros [_ K]. rewrite (K A). reflexivity.
Qed.

Lemma parse_attrs_some : forall d l, parse_attrs net d = Some l -> dkeys l = dkeys d /\ (NoDup (dkeys d) -> forall k w, dget k l = Some w <-> exists v, dget k d = Some v /\ converted k v w).
Proof.
  intros d. induction d as [|[k0 v0] d IH]; intros l H.
  - injection H as H. subst l. split; [reflexivity|]. intros _ k w. split; [discriminate|intros [v [E _]]; discriminate E].
  - cbn [parse_attrs] in H. destruct (parse_attr net (k0, v0)) as [w0|] eqn:A; [|discriminate H]. destruct (parse_attrs net d) as [l0|]; [|discriminate H]. injection H as H. subst l. cbn [fst]. destruct (IH l0 eq_refl) as [I1 I2]. split.
    + unfold dkeys in *. cbn [map fst]. rewrite I1. reflexivity.
    + intros ND k w. unfold dkeys in ND. cbn [map fst] in ND. inversion ND as [|x y N1 N2]. subst. cbn [dget]. destruct (String.eqb_spec k k0) as [Q|Q].
      * subst k0. split; [intros E; injection E as E; subst w0; exists v0; split; [reflexivity|apply parse_attr_iff; exact A]|intros [v [E K]]; injection E as E; subst v; apply parse_attr_iff in K; rewrite K in A; exact (eq_sym A)].
      * exact (I2 N2 k w).
Qed.

Lemma parse_attrs_none : forall d, parse_attrs net d = None <-> exists k v, In (k, v) d /\ is_af k /\ ~ is_bool v /\ net v = None.
Proof.
  assert (NONE : forall k v, parse_attr net (k, v) = None <-> is_af k /\ ~ is_bool v /\ net v = None).
  { intros k v. unfold parse_attr. cbn [fst snd]. destruct (memS k ["ipv4"; "ipv6"]) eqn:M.
    - apply memS_true in M. assert (A : is_af k) by (destruct M as [M|[M|[]]]; [left|right]; symmetry; exact M).
      assert (NB : forall o, (forall b, o <> VBool b) -> (match net o with Some t => Some (VStr t) | None => None end = None <-> is_af k /\ ~ is_bool o /\ net o = None)).
      { intros o NO. destruct (net o); [split; [discriminate|intros [_ [_ K]]; discriminate K]|]. split; [intros _; split; [exact A|split; [intros [b B]; exact (NO b B)|reflexivity]]|reflexivity]. }
      destruct v as [|b|z|s|l|d]; try (apply NB; intros b; discriminate). split; [discriminate|intros [_ [N _]]; exfalso; apply N; exists b; reflexivity].
    - apply memS_false in M. split; [discriminate|]. intros [[K|K] _]; exfalso; apply M; rewrite K; [left|right; left]; reflexivity. }
  intros d. induction d as [|[k0 v0] d IH]; [split; [discriminate|intros [k [v [[] _]]]]|]. cbn [parse_attrs]. specialize (NONE k0 v0). destruct (parse_attr net (k0, v0)) as [w|].
  - destruct (parse_attrs net d) as [l|].
    + split; [discriminate|]. intros [k [v [[E|I] K]]]; [injection E as E1 E2; subst k0 v0; apply NONE in K; discriminate K|]. assert (C : Some l = None) by (apply IH; exists k, v; split; assumption). discriminate C.
    + split; [|reflexivity]. intros _. destruct (proj1 IH eq_refl) as [k [v [I K]]]. exists k, v. split; [right; exact I|exact K].
  - split; [|reflexivity]. intros _. exists k0, v0. split; [left; reflexivity|apply NONE; reflexivity].
Qed.

(* the attribute a value is stored in: ip is a legacy name of ipv4 *)
Definition target (k0 k : string) : Prop := (k0 = "ip" /\ k = "ipv4") \/ (k0 <> "ip" /\ k = k0).

(* A prefix with address families: every attribute is kept, ip is renamed to ipv4, and addresses are replaced with networks. *)
Theorem parse_prefix_exact : forall s d s' r e, NoDup (dkeys d) -> d <> [] -> parse_prefix known alloc net4 net s (VDict d) = (s', r, e) ->
  s' = s /\
  (e = true <-> (In "ip" (dkeys d) /\ In "ipv4" (dkeys d)) \/ exists k0 k v, dget k0 d = Some v /\ target k0 k /\ is_af k /\ ~ is_bool v /\ net v = None) /\
  (e = true -> r = []) /\
  (e = false -> forall k w, dget k r = Some w <-> exists k0 v, dget k0 d = Some v /\ target k0 k /\ converted k v w).
Proof.
  intros s d s' r e ND NE H. unfold parse_prefix in H. assert (T : truthy (VDict d) = true) by (destruct d; [exfalso; apply NE; reflexivity|reflexivity]). rewrite T in H. cbn [negb] in H.
  assert (REN : forall d1, rename_ip d = Some d1 -> NoDup (dkeys d1) /\ ~ (In "ip" (dkeys d) /\ In "ipv4" (dkeys d)) /\ forall k v, dget k d1 = Some v <-> exists k0, dget k0 d = Some v /\ target k0 k).
  { intros d1 R. unfold rename_ip in R. destruct (dget "ip" d) as [x|] eqn:IP.
    - destruct (dmem "ipv4" d) eqn:M; [discriminate R|]. injection R as R. subst d1.
      assert (N4 : ~ In "ipv4" (dkeys d)) by (intros K; apply dmem_true in K; rewrite K in M; discriminate M). split; [|split].
      + assert (DP : dkeys (dpop "ip" (dset "ipv4" x d)) = filter (fun k => negb (String.eqb "ip" k)) (dkeys (dset "ipv4" x d))).
        { clear. generalize (dset "ipv4" x d). intros m. induction m as [|[k v] m IH]; [reflexivity|]. unfold dkeys in *. cbn [dpop filter map fst] in *. destruct (String.eqb "ip" k) eqn:E; cbn [negb]; [exact IH|cbn [map fst]; rewrite <- IH; reflexivity]. }
        rewrite DP. apply NoDup_filter. apply NoDup_dset. exact ND.
      + intros [_ K]. contradiction.
      + intros k v. destruct (string_dec k "ip") as [Q|Q].
        * subst k. rewrite dget_dpop_same. split; [discriminate|]. intros [k0 [_ [[_ K]|[K1 K2]]]]; [discriminate K|symmetry in K2; contradiction].
        * rewrite dget_dpop_other by exact Q. destruct (string_dec k "ipv4") as [Q4|Q4].
          -- subst k. rewrite dget_dset_same. split; [intros E; exists "ip"; split; [rewrite IP; exact E|left; split; reflexivity]|]. intros [k0 [E [[K1 K2]|[K1 K2]]]]; [subst k0; rewrite IP in E; exact E|]. subst k0. exfalso. apply N4. apply dget_Some_key in E. exact E.
          -- rewrite dget_dset_other by exact Q4. split; [intros E; exists k; split; [exact E|right; split; [exact Q|reflexivity]]|]. intros [k0 [E [[K1 K2]|[K1 K2]]]]; [contradiction|subst k0; exact E].
    - injection R as R. subst d1. apply dget_None in IP. split; [exact ND|]. split; [intros [K _]; contradiction|]. intros k v. split.
      + intros E. exists k. split; [exact E|]. right. split; [|reflexivity]. intros Q. subst k. apply IP. apply dget_Some_key in E. exact E.
      + intros [k0 [E [[K1 K2]|[K1 K2]]]]; [subst k0; exfalso; apply IP; apply dget_Some_key in E; exact E|subst k0; exact E]. }
  destruct (rename_ip d) as [d1|] eqn:R.
  - destruct (REN d1 eq_refl) as [ND1 [NB G]]. pose proof (parse_attrs_none d1) as PN. pose proof (parse_attrs_some d1) as PS. destruct (parse_attrs net d1) as [l|].
    + injection H as H1 H2 H3. subst s' r e. split; [reflexivity|]. split; [|split; [discriminate|]].
      * split; [discriminate|]. intros [K|[k0 [k [v [E [T1 [A [N1 N2]]]]]]]]; [contradiction|]. assert (C : Some l = None).
        { apply PN. exists k, v. split; [|repeat split; assumption]. apply dget_In. apply G. exists k0. split; assumption. }
        discriminate C.
      * intros _ k w. destruct (PS l eq_refl) as [_ P]. rewrite (P ND1 k w). split.
        -- intros [v [E K]]. apply G in E. destruct E as [k0 [E T1]]. exists k0, v. repeat split; try assumption; apply K.
        -- intros [k0 [v [E [T1 K]]]]. exists v. split; [apply G; exists k0; split; assumption|exact K].
    + injection H as H1 H2 H3. subst s' r e. split; [reflexivity|]. split; [|split; [reflexivity|discriminate]]. split; [|reflexivity]. intros _. right. destruct (proj1 PN eq_refl) as [k [v [I [A [N1 N2]]]]].
      assert (E : dget k d1 = Some v) by (apply dget_NoDup; assumption). apply G in E. destruct E as [k0 [E T1]]. exists k0, k, v. repeat split; assumption.
  - injection H as H1 H2 H3. subst s' r e. split; [reflexivity|]. split; [|split; [reflexivity|discriminate]]. split; [|reflexivity]. intros _. left. unfold rename_ip in R. destruct (dget "ip" d) as [x|] eqn:IP; [|discriminate R]. destruct (dmem "ipv4" d) eqn:M; [|discriminate R]. split; [apply dget_Some_key in IP; exact IP|apply dmem_true; exact M].
Qed.

(* A text is a named prefix, or an IPv4 prefix. *)
Theorem parse_text_exact : forall s t s' r e, t <> "" -> parse_prefix known alloc net4 net s (VStr t) = (s', r, e) ->
  (In t (dkeys (ns_pfx s)) -> e = false /\ s' = fst (evaluate known alloc s t) /\ dget t (ns_pfx s') = Some r) /\
  (~ In t (dkeys (ns_pfx s)) -> s' = s /\ (e = true <-> net4 t = None) /\ forall n, (net4 t = Some n -> r = [("ipv4", VStr n)]) /\ (net4 t = None -> r = [])).
Proof.
  intros s t s' r e NE H. unfold parse_prefix in H. assert (T : truthy (VStr t) = true) by (destruct t; [exfalso; apply NE; reflexivity|reflexivity]). rewrite T in H. cbn [negb] in H. destruct (dmem t (ns_pfx s)) eqn:M.
  - apply dmem_true in M. split; [|contradiction]. intros _. injection H as H1 H2 H3. subst s' e. split; [reflexivity|]. split; [reflexivity|].
    assert (IN : exists x, dget t (ns_pfx (fst (evaluate known alloc s t))) = Some x).
    { unfold evaluate. destruct (dget t (ns_pfx s)) as [d|] eqn:D; [|apply dget_None in D; contradiction]. destruct (dget "pool" (dset "_name" (VStr t) d)) as [[|b|z|p|l|q]|]; cbn [fst ns_pfx]; try (eexists; apply dget_dset_same). destruct (known p); cbn [fst ns_pfx]; eexists; apply dget_dset_same. }
    destruct IN as [x X]. rewrite X in H2 |- *. subst r. reflexivity.
  - assert (NI : ~ In t (dkeys (ns_pfx s))) by (intros K; apply dmem_true in K; rewrite K in M; discriminate M). split; [contradiction|]. intros _. destruct (net4 t) as [n|] eqn:N; injection H as H1 H2 H3; subst s' r e.
    + split; [reflexivity|]. split; [split; discriminate|]. intros m. split; [intros E; injection E as E; subst m; reflexivity|discriminate].
    + split; [reflexivity|]. split; [split; reflexivity|]. intros m. split; [discriminate|reflexivity].
Qed.
End Named.

(* ------------------------------------------------------------------ *)
(* Link prefixes and gateways                                           *)

Section Link.
Variable parse : val -> dict val.
Variable pools : dict (dict val).
Variable nth_ip : val -> Z -> option string.

(* the prefix of a link has a network of an address family; it has no address with the index of the gateway *)
Definition numbered (pfx : dict val) (af : string) : Prop := exists v, dget af pfx = Some v /\ ~ is_bool v.
Definition net_of (prefix : option val) (af : string) : val := match prefix with Some (VDict p) => match dget af p with Some v => v | None => VDict [] end | _ => VDict [] end.
Definition no_gw (prefix : option val) (pfx : dict val) (id : Z) (af : string) : Prop := numbered pfx af /\ nth_ip (net_of prefix af) id = None.

Lemma gw_step_cases : forall p pfx id d e af, gw_step nth_ip p pfx id (d, e) af =
  if e then (d, e) else match dget af pfx with
  | None => (d, false) | Some (VBool _) => (d, false)
  | Some _ => match nth_ip (match dget af p with Some v => v | None => VDict [] end) id with Some a => (dset af (VStr a) d, false) | None => (d, true) end end.
Proof.
  intros p pfx id d e af. unfold gw_step. cbn [fst snd]. destruct e; [reflexivity|]. destruct (dget af pfx) as [[|b|z|s|l|q]|]; reflexivity.
Qed.

(* one address family of a gateway *)
Lemma gw_af : forall prefix pfx id d e d' e' af, gw_step nth_ip (match prefix with Some (VDict p) => p | _ => [] end) pfx id (d, e) af = (d', e') ->
  (e = true -> d' = d /\ e' = true) /\
  (e = false -> (e' = true <-> no_gw prefix pfx id af) /\
    (forall a, numbered pfx af -> nth_ip (net_of prefix af) id = Some a -> d' = dset af (VStr a) d) /\
    (~ numbered pfx af \/ nth_ip (net_of prefix af) id = None -> d' = d)).
Proof.
  intros prefix pfx id d e d' e' af H. rewrite gw_step_cases in H. destruct e.
  - injection H as H1 H2. subst d' e'. split; [intros _; split; reflexivity|discriminate].
  - split; [discriminate|]. intros _.
    assert (NO : nth_ip (net_of prefix af) id = nth_ip (match dget af (match prefix with Some (VDict p) => p | _ => [] end) with Some v => v | None => VDict [] end) id).
    { unfold net_of. destruct prefix as [[|b|z|s|l|q]|]; reflexivity. }
    assert (NN : ~ numbered pfx af -> (d, false) = (d', e') -> (e' = true <-> no_gw prefix pfx id af) /\ (forall a, numbered pfx af -> nth_ip (net_of prefix af) id = Some a -> d' = dset af (VStr a) d) /\ (~ numbered pfx af \/ nth_ip (net_of prefix af) id = None -> d' = d)).
    { intros N E. injection E as E1 E2. subst d' e'. split; [split; [discriminate|intros [K _]; contradiction]|]. split; [intros a K; contradiction|reflexivity]. }
    unfold numbered in *. destruct (dget af pfx) as [v|] eqn:V; [|apply NN; [intros [v [K _]]; discriminate K|exact H]].
    assert (YES : ~ is_bool v -> match nth_ip (match dget af (match prefix with Some (VDict p) => p | _ => [] end) with Some w => w | None => VDict [] end) id with Some a => (dset af (VStr a) d, false) | None => (d, true) end = (d', e') ->
      (e' = true <-> no_gw prefix pfx id af) /\ (forall a, (exists w, Some v = Some w /\ ~ is_bool w) -> nth_ip (net_of prefix af) id = Some a -> d' = dset af (VStr a) d) /\ (~ (exists w, Some v = Some w /\ ~ is_bool w) \/ nth_ip (net_of prefix af) id = None -> d' = d)).
    { intros NB E. rewrite <- NO in E. assert (U : numbered pfx af) by (exists v; split; assumption). unfold no_gw. destruct (nth_ip (net_of prefix af) id) as [a|]; injection E as E1 E2; subst d' e'.
      - split; [split; [discriminate|intros [_ K]; discriminate K]|]. split; [intros b _ K; injection K as K; subst b; reflexivity|]. intros [K|K]; [exfalso; apply K; exists v; split; [reflexivity|exact NB]|discriminate K].
      - split; [split; [intros _; split; [exact U|reflexivity]|reflexivity]|]. split; [intros a _ K; discriminate K|reflexivity]. }
    destruct v as [|b|z|s|l|q]; try (apply YES; [intros [b K]; discriminate K|exact H]). apply NN; [|exact H]. intros [w [K N]]. injection K as K. subst w. apply N. exists b. reflexivity.
Qed.

(* Gateway addresses of a link; after an IPv4 error the IPv6 address is not set. *)
Theorem set_gateway_exact : forall prefix pfx gw gw' e, set_gateway nth_ip prefix pfx gw = (gw', e) ->
  (gw = None -> gw' = None /\ e = false) /\
  (forall d, gw = Some (0%Z, d) -> gw' = gw /\ e = false) /\
  (forall id d, gw = Some (id, d) -> id <> 0%Z -> exists d', gw' = Some (id, d') /\
     (e = true <-> no_gw prefix pfx id "ipv4" \/ no_gw prefix pfx id "ipv6") /\
     (forall a, numbered pfx "ipv4" -> nth_ip (net_of prefix "ipv4") id = Some a -> dget "ipv4" d' = Some (VStr a)) /\
     (~ numbered pfx "ipv4" \/ nth_ip (net_of prefix "ipv4") id = None -> dget "ipv4" d' = dget "ipv4" d) /\
     (forall a, ~ no_gw prefix pfx id "ipv4" -> numbered pfx "ipv6" -> nth_ip (net_of prefix "ipv6") id = Some a -> dget "ipv6" d' = Some (VStr a)) /\
     (no_gw prefix pfx id "ipv4" \/ ~ numbered pfx "ipv6" \/ nth_ip (net_of prefix "ipv6") id = None -> dget "ipv6" d' = dget "ipv6" d) /\
     (forall k, k <> "ipv4" -> k <> "ipv6" -> dget k d' = dget k d)).
Proof.
  intros prefix pfx gw gw' e H. unfold set_gateway in H. destruct gw as [[id d]|].
  2:{ injection H as H1 H2. subst gw' e. split; [intros _; split; reflexivity|]. split; intros; discriminate. }
  split; [discriminate|]. destruct (Z.eqb_spec id 0) as [Z0|Z0].
  - injection H as H1 H2. subst gw' e. split; [intros d0 _; split; reflexivity|]. intros id0 d0 E N. injection E as E1 E2. subst id0. contradiction.
  - split; [intros d0 E; injection E as E1 E2; contradiction|]. intros id0 d0 E _. injection E as E1 E2. subst id0 d0. cbn [fold_left] in H.
    destruct (gw_step nth_ip (match prefix with Some (VDict p) => p | _ => [] end) pfx id (d, false) "ipv4") as [d1 e1] eqn:S4.
    destruct (gw_step nth_ip (match prefix with Some (VDict p) => p | _ => [] end) pfx id (d1, e1) "ipv6") as [d2 e2] eqn:S6.
    injection H as H1 H2. subst gw' e. exists d2. split; [reflexivity|]. apply gw_af in S4. apply gw_af in S6. destruct S4 as [_ A]. destruct (A eq_refl) as [A1 [A2 A3]]. clear A. destruct S6 as [B C].
    assert (K46 : forall k v, k <> "ipv6" -> dget k (dset "ipv6" v d1) = dget k d1) by (intros k v K; apply dget_dset_other; exact K).
    assert (D2 : forall k, k <> "ipv6" -> dget k d2 = dget k d1).
    { intros k K. destruct e1; [destruct (B eq_refl) as [Q _]; rewrite Q; reflexivity|]. destruct (C eq_refl) as [_ [C2 C3]]. destruct (dget "ipv6" pfx) as [v|] eqn:V.
      - destruct (nth_ip (net_of prefix "ipv6") id) as [a|] eqn:N; [|rewrite C3; [reflexivity|right; reflexivity]].
        assert (DB : is_bool v \/ ~ is_bool v) by (destruct v; try (right; intros [b X]; discriminate X); left; exists b; reflexivity). destruct DB as [DB|DB].
        + rewrite C3; [reflexivity|]. left. intros [w [W NB]]. rewrite V in W. injection W as W. subst w. contradiction.
        + rewrite (C2 a); [apply K46; exact K| |reflexivity]. exists v. split; assumption.
      - rewrite C3; [reflexivity|]. left. intros [w [W _]]. rewrite V in W. discriminate W. }
    assert (D1 : forall k, k <> "ipv4" -> dget k d1 = dget k d).
    { intros k K. destruct (dget "ipv4" pfx) as [v|] eqn:V.
      - destruct (nth_ip (net_of prefix "ipv4") id) as [a|] eqn:N; [|rewrite A3; [reflexivity|right; reflexivity]].
        assert (DB : is_bool v \/ ~ is_bool v) by (destruct v; try (right; intros [b X]; discriminate X); left; exists b; reflexivity). destruct DB as [DB|DB].
        + rewrite A3; [reflexivity|]. left. intros [w [W NB]]. rewrite V in W. injection W as W. subst w. contradiction.
        + rewrite (A2 a); [apply dget_dset_other; exact K| |reflexivity]. exists v. split; assumption.
      - rewrite A3; [reflexivity|]. left. intros [w [W _]]. rewrite V in W. discriminate W. }
    split; [|split; [|split; [|split; [|split]]]].
    + destruct e1.
      * destruct (B eq_refl) as [_ Q]. split; [intros _; left; apply A1; reflexivity|intros _; exact Q].
      * destruct (C eq_refl) as [C1 _]. rewrite C1. split; [intros K; right; exact K|]. intros [K|K]; [apply A1 in K; discriminate K|exact K].
    + intros a U N. rewrite D2 by discriminate. rewrite (A2 a U N). apply dget_dset_same.
    + intros K. rewrite D2 by discriminate. rewrite (A3 K). reflexivity.
    + intros a NG U N. destruct e1; [exfalso; apply NG; apply A1; reflexivity|]. destruct (C eq_refl) as [_ [C2 _]]. rewrite (C2 a U N). apply dget_dset_same.
    + intros K. rewrite <- (D1 "ipv6") by discriminate. destruct e1; [destruct (B eq_refl) as [Q _]; rewrite Q; reflexivity|]. destruct (C eq_refl) as [_ [_ C3]]. rewrite C3; [reflexivity|]. destruct K as [K|K]; [apply A1 in K; discriminate K|exact K].
    + intros k K4 K6. rewrite D2 by exact K6. apply D1. exact K4.
Qed.

(* the link has a prefix that does not need a pool *)
Definition has_af (d : dict val) : Prop := In "ipv4" (dkeys d) \/ In "ipv6" (dkeys d).
Definition own_prefix (l : alink) (v : val) : Prop := l_prefix l = Some v /\ (v = VBool false \/ parse v = [] \/ has_af (parse v)).

(* pools to try *)
Definition tried (l : alink) (defs cand : list string) : Prop :=
  (forall p, l_pool l = Some p -> cand = p :: defs) /\ (l_pool l = None -> forall r, l_role l = Some r -> cand = r :: defs) /\ (l_pool l = None -> l_role l = None -> cand = defs).

(* the first pool that exists *)
Definition first_pool (cand : list string) (d : dict val) : Prop :=
  exists before p after, cand = before ++ p :: after /\ (forall q, In q before -> ~ In q (dkeys pools)) /\ dget p pools = Some d.

(* data added to the prefix from a pool *)
Definition extra_of (l : alink) : dict val := match l_prefix l with Some v => parse v | None => [] end.
Definition combined (r extra : dict val) (p : option val) : Prop :=
  (r = [] -> extra = [] -> p = None) /\
  (r <> [] \/ extra <> [] -> exists d, p = Some (VDict d) /\ forall k, (dget k extra = None -> dget k d = dget k r) /\ forall w, dget k extra = Some w -> is_dict w = false -> dget k d = Some w).

Lemma combined_madd : forall r extra, NoDup (dkeys extra) -> combined r extra (match madd r extra with [] => None | _ => Some (VDict (madd r extra)) end).
Proof.
  intros r extra ND. rewrite madd_mdict. split.
  - intros E1 E2. subst r extra. reflexivity.
  - intros N. assert (NE : mdict r extra <> []).
    { intros K. pose proof (dkeys_mdict extra r ND) as D. rewrite K in D. destruct r as [|x r]; [|discriminate D]. destruct extra as [|y extra]; [destruct N as [N|N]; apply N; reflexivity|discriminate D]. }
    exists (mdict r extra). split; [destruct (mdict r extra); [contradiction|reflexivity]|]. intros k. rewrite dget_mdict by exact ND. split.
    + intros E. rewrite E. unfold mopt. destruct (dget k r); reflexivity.
    + intros w E W. rewrite E. unfold mopt. destruct (dget k r); [rewrite merge_scalar_r by exact W; reflexivity|reflexivity].
Qed.

Lemma get_pool_spec : forall cand, match get_pool pools cand with
  | Some p => exists d, dget p pools = Some d /\ first_pool cand d
  | None => forall q, In q cand -> ~ In q (dkeys pools) end.
Proof.
  intros cand. unfold get_pool. induction cand as [|p l IH]; [intros q []|]. cbn [find]. destruct (dmem p pools) eqn:M.
  - apply dmem_true in M. destruct (dget p pools) as [d|] eqn:D; [|apply dget_None in D; contradiction]. exists d. split; [reflexivity|]. exists [], p, l. split; [reflexivity|]. split; [intros q []|exact D].
  - assert (N : ~ In p (dkeys pools)) by (intros K; apply dmem_true in K; rewrite K in M; discriminate M). destruct (find (fun q => dmem q pools) l) as [q|].
    + destruct IH as [d [D [b [x [a [E [B X]]]]]]]. exists d. split; [exact D|]. exists (p :: b), x, a. split; [rewrite E; reflexivity|]. split; [|exact X]. intros y [Y|Y]; [subst y; exact N|exact (B y Y)].
    + intros q [Q|Q]; [subst q; exact N|exact (IH q Q)].
Qed.

Lemma set_gateway_none : forall prefix pfx gw, ~ has_af pfx -> set_gateway nth_ip prefix pfx gw = (gw, false).
Proof.
  intros prefix pfx gw N. unfold set_gateway. destruct gw as [[id d]|]; [|reflexivity]. destruct (id =? 0)%Z; [reflexivity|]. cbn [fold_left]. rewrite !gw_step_cases.
  assert (N4 : dget "ipv4" pfx = None) by (apply dget_None; intros K; apply N; left; exact K). assert (N6 : dget "ipv6" pfx = None) by (apply dget_None; intros K; apply N; right; exact K).
  rewrite N4, gw_step_cases, N6. reflexivity.
Qed.

(* Where the prefix of a link comes from *)
Theorem link_prefix_exact : forall l defs l' r errs, (forall v, NoDup (dkeys (parse v))) -> link_prefix parse pools nth_ip l defs = (l', r, errs) ->
  (l_unn l' = l_unn l /\ l_pool l' = l_pool l /\ l_role l' = l_role l) /\
  (forall v, own_prefix l v -> r = parse v /\ (forall p, ~ In (UnknownPool p) errs) /\ ~ In NoPool errs /\
     ((forall t, v <> VStr t) -> l_prefix l' = Some v) /\
     (forall t, v = VStr t -> exists p, l_prefix l' = Some (VDict p) /\ forall k, (In k ["ipv4"; "ipv6"; "allocation"; "_name"] -> dget k p = dget k r) /\ (~ In k ["ipv4"; "ipv6"; "allocation"; "_name"] -> dget k p = None)) /\
     (v = VBool false -> l' = l /\ errs = []) /\
     (v <> VBool false -> l_gw l' = fst (set_gateway nth_ip (l_prefix l') r (l_gw l)) /\ (In NoGateway errs <-> snd (set_gateway nth_ip (l_prefix l') r (l_gw l)) = true))) /\
  ((forall v, ~ own_prefix l v) -> l_unn l = true -> r = [("unnumbered", VBool true)] /\ l_prefix l' = Some (VDict r) /\ l_gw l' = l_gw l /\ errs = []) /\
  ((forall v, ~ own_prefix l v) -> l_unn l = false -> exists cand, tried l defs cand /\
     (first_pool cand r \/ (forall q, In q cand -> ~ In q (dkeys pools)) /\ r = []) /\
     (In NoPool errs <-> forall q, In q cand -> ~ In q (dkeys pools)) /\
     (forall p, In (UnknownPool p) errs <-> l_pool l = Some p /\ ~ In p (dkeys pools)) /\
     combined r (extra_of l) (l_prefix l') /\
     l_gw l' = fst (set_gateway nth_ip (l_prefix l') r (l_gw l)) /\ (In NoGateway errs <-> snd (set_gateway nth_ip (l_prefix l') r (l_gw l)) = true)).
Proof.
  intros l defs l' r errs ND H.
  assert (POOL : forall l1 x l2 r2 e2, NoDup (dkeys x) -> pool_prefix pools nth_ip l1 defs x = (l2, r2, e2) ->
    (l_unn l2 = l_unn l1 /\ l_pool l2 = l_pool l1 /\ l_role l2 = l_role l1) /\
    (l_unn l1 = true -> r2 = [("unnumbered", VBool true)] /\ l_prefix l2 = Some (VDict r2) /\ l_gw l2 = l_gw l1 /\ e2 = []) /\
    (l_unn l1 = false -> exists cand, tried l1 defs cand /\
     (first_pool cand r2 \/ (forall q, In q cand -> ~ In q (dkeys pools)) /\ r2 = []) /\
     (In NoPool e2 <-> forall q, In q cand -> ~ In q (dkeys pools)) /\
     (forall p, In (UnknownPool p) e2 <-> l_pool l1 = Some p /\ ~ In p (dkeys pools)) /\
     combined r2 x (l_prefix l2) /\
     l_gw l2 = fst (set_gateway nth_ip (l_prefix l2) r2 (l_gw l1)) /\ (In NoGateway e2 <-> snd (set_gateway nth_ip (l_prefix l2) r2 (l_gw l1)) = true))).
  { intros l1 x l2 r2 e2 NX E. unfold pool_prefix in E. destruct (l_unn l1) eqn:U.
    - injection E as E1 E2 E3. subst l2 r2 e2. cbn [l_unn l_pool l_role l_prefix l_gw]. split; [repeat split|]. split; [intros _; repeat split|discriminate].
    - pose proof (get_pool_spec (candidates l1 defs)) as GP.
      assert (TR : tried l1 defs (candidates l1 defs)).
      { unfold tried, candidates. destruct (l_pool l1) as [p|]; [split; [intros q Q; injection Q as Q; subst q; reflexivity|split; discriminate]|]. split; [discriminate|]. destruct (l_role l1) as [q|]; split; try discriminate; [intros _ y Y; injection Y as Y; subst y; reflexivity|reflexivity]. }
      set (e1 := match l_pool l1 with Some p => if dmem p pools then [] else [UnknownPool p] | None => [] end) in *.
      assert (E1 : (forall p, In (UnknownPool p) e1 <-> l_pool l1 = Some p /\ ~ In p (dkeys pools)) /\ ~ In NoPool e1 /\ ~ In NoGateway e1).
      { unfold e1. destruct (l_pool l1) as [p|]; [|split; [intros p; split; [intros []|intros [K _]; discriminate K]|split; intros []]]. destruct (dmem p pools) eqn:M.
        - apply dmem_true in M. split; [intros q; split; [intros []|intros [K N]; injection K as K; subst q; contradiction]|split; intros []].
        - assert (N : ~ In p (dkeys pools)) by (intros K; apply dmem_true in K; rewrite K in M; discriminate M). split; [intros q; split; [intros [K|[]]; injection K as K; subst q; split; [reflexivity|exact N]|intros [K _]; injection K as K; subst q; left; reflexivity]|split; intros [K|[]]; discriminate K]. }
      destruct E1 as [EA [EB EC]]. clearbody e1.
      assert (FIN : forall got e0, (let full := madd got x in let pfx := match full with [] => None | _ => Some (VDict full) end in let (gw, bad) := set_gateway nth_ip pfx got (l_gw l1) in
          (mk_al pfx false (l_pool l1) (l_role l1) gw, got, e1 ++ e0 ++ (if bad then [NoGateway] else []))) = (l2, r2, e2) -> (forall p, ~ In (UnknownPool p) e0) -> ~ In NoGateway e0 ->
          r2 = got /\ (l_unn l2 = false /\ l_pool l2 = l_pool l1 /\ l_role l2 = l_role l1) /\ (In NoPool e2 <-> In NoPool e0) /\ (forall p, In (UnknownPool p) e2 <-> l_pool l1 = Some p /\ ~ In p (dkeys pools)) /\ combined r2 x (l_prefix l2) /\
          l_gw l2 = fst (set_gateway nth_ip (l_prefix l2) r2 (l_gw l1)) /\ (In NoGateway e2 <-> snd (set_gateway nth_ip (l_prefix l2) r2 (l_gw l1)) = true)).
      { intros got e0 F NU NG. cbv zeta in F. pose proof (combined_madd got x NX) as CB. set (pfx := match madd got x with [] => None | _ => Some (VDict (madd got x)) end) in *. destruct (set_gateway nth_ip pfx got (l_gw l1)) as [gw bad] eqn:SG.
        injection F as F1 F2 F3. subst l2 r2 e2. cbn [l_unn l_pool l_role l_prefix l_gw]. rewrite SG. cbn [fst snd]. split; [reflexivity|]. split; [repeat split|]. split; [|split; [|split; [exact CB|split; [reflexivity|]]]].
        - rewrite !in_app_iff. split; [intros [K|[K|K]]; [contradiction|exact K|destruct bad; [destruct K as [K|[]]; discriminate K|destruct K]]|intros K; right; left; exact K].
        - intros p. rewrite !in_app_iff. split; [intros [K|[K|K]]; [apply EA; exact K|exfalso; exact (NU p K)|destruct bad; [destruct K as [K|[]]; discriminate K|destruct K]]|intros K; left; apply EA; exact K].
        - rewrite !in_app_iff. split; [intros [K|[K|K]]; [contradiction|contradiction|destruct bad; [reflexivity|destruct K]]|intros K; subst bad; right; right; left; reflexivity]. }
      destruct (get_pool pools (candidates l1 defs)) as [p|].
      + destruct GP as [d [D FP]]. rewrite D in E. destruct (FIN d [] E ltac:(intros q []) ltac:(intros [])) as [F1 [F2 [F3 [F4 [F5 [F6 F7]]]]]]. split; [exact F2|]. split; [discriminate|]. intros _. exists (candidates l1 defs). split; [exact TR|]. split; [left; rewrite F1; exact FP|].
        split; [rewrite F3; split; [intros []|]|repeat (split; [assumption|]); assumption]. intros K. exfalso. destruct FP as [b [q [a [Q1 [_ Q3]]]]]. apply (K q); [rewrite Q1; apply in_elt|apply dget_Some_key in Q3; exact Q3].
      + destruct (FIN [] [NoPool] E ltac:(intros q [K|[]]; discriminate K) ltac:(intros [K|[]]; discriminate K)) as [F1 [F2 [F3 [F4 [F5 [F6 F7]]]]]]. split; [exact F2|]. split; [discriminate|]. intros _. exists (candidates l1 defs). split; [exact TR|]. split; [right; split; [exact GP|exact F1]|].
        split; [rewrite F3; split; [intros _; exact GP|intros _; left; reflexivity]|repeat (split; [assumption|]); assumption]. }
  assert (HD : forall d, has_af d \/ ~ has_af d).
  { intros d. unfold has_af. destruct (dmem "ipv4" d) eqn:M4; [left; left; apply dmem_true; exact M4|]. destruct (dmem "ipv6" d) eqn:M6; [left; right; apply dmem_true; exact M6|]. right. intros [K|K]; apply dmem_true in K; [rewrite K in M4|rewrite K in M6]; discriminate. }
  unfold link_prefix in H. destruct (l_prefix l) as [v|] eqn:LP.
  2:{ destruct (POOL l [] l' r errs ltac:(constructor) H) as [P1 [P2 P3]]. split; [exact P1|]. split; [intros v [K _]; rewrite LP in K; discriminate K|]. split; [intros _; exact P2|]. intros _ U. unfold extra_of. rewrite LP. exact (P3 U). }
  assert (VF : v = VBool false \/ v <> VBool false) by (destruct v as [|[|]|z|s|q|d]; try (right; discriminate); left; reflexivity). destruct VF as [VF|VF].
  { subst v. injection H as H1 H2 H3. subst l' r errs. assert (OWN : own_prefix l (VBool false)) by (split; [exact LP|left; reflexivity]). split; [repeat split|]. split; [|split; intros K; exfalso; exact (K _ OWN)].
    intros v [K _]. rewrite LP in K. injection K as K. subst v. split; [reflexivity|]. split; [intros p []|]. split; [intros []|]. split; [intros _; exact LP|]. split; [intros t K; discriminate K|]. split; [intros _; split; reflexivity|]. intros K. exfalso. apply K. reflexivity. }
  set (p1 := match v with VStr _ => VDict (rebuild_prefix (parse v)) | _ => v end) in *.
  assert (H2 : (let (gw, bad) := set_gateway nth_ip (Some p1) (parse v) (l_gw l) in
        let l1 := mk_al (Some p1) (l_unn l) (l_pool l) (l_role l) gw in
        let e := if bad then [NoGateway] else [] in
        match parse v with
        | [] => (l1, parse v, e)
        | _ => if dmem "ipv4" (parse v) || dmem "ipv6" (parse v) then (l1, parse v, e) else let '(l2, r, e2) := pool_prefix pools nth_ip l1 defs (parse v) in (l2, r, e ++ e2)
        end) = (l', r, errs)).
  { destruct v as [|[|]|z|s|q|d]; try exact H. exfalso. apply VF. reflexivity. }
  clear H. rename H2 into H. destruct (set_gateway nth_ip (Some p1) (parse v) (l_gw l)) as [gw bad] eqn:SG. cbv zeta in H.
  assert (DIRECT : parse v = [] \/ has_af (parse v) -> (mk_al (Some p1) (l_unn l) (l_pool l) (l_role l) gw, parse v, if bad then [NoGateway] else []) = (l', r, errs)).
  { intros [K|K].
    - destruct (parse v); [exact H|discriminate K].
    - assert (B : dmem "ipv4" (parse v) || dmem "ipv6" (parse v) = true) by (apply orb_true_iff; destruct K as [K|K]; [left|right]; apply dmem_true; exact K). destruct (parse v); [exact H|]. rewrite B in H. exact H. }
  assert (OWNV : forall w, own_prefix l w -> w = v /\ (parse v = [] \/ has_af (parse v))).
  { intros w [K1 K2]. rewrite LP in K1. injection K1 as K1. subst w. split; [reflexivity|]. destruct K2 as [K2|K2]; [contradiction|exact K2]. }
  assert (NIL : parse v = [] \/ parse v <> []) by (destruct (parse v); [left; reflexivity|right; discriminate]).
  assert (CASES : (parse v = [] \/ has_af (parse v)) \/ (parse v <> [] /\ ~ has_af (parse v))) by (destruct NIL as [N|N]; [left; left; exact N|destruct (HD (parse v)) as [K|K]; [left; right; exact K|right; split; assumption]]).
  destruct CASES as [CS|[CN CA]].
  - specialize (DIRECT CS). injection DIRECT as D1 D2 D3. subst l' r errs. cbn [l_unn l_pool l_role l_prefix l_gw]. assert (OWN : own_prefix l v) by (split; [exact LP|right; exact CS]). split; [repeat split|]. split; [|split; intros K; exfalso; exact (K _ OWN)].
    intros w W. destruct (OWNV w W) as [E _]. subst w. split; [reflexivity|]. split; [intros p K; destruct bad; [destruct K as [K|[]]; discriminate K|destruct K]|]. split; [intros K; destruct bad; [destruct K as [K|[]]; discriminate K|destruct K]|].
    split; [intros NT; unfold p1; destruct v; try reflexivity; exfalso; exact (NT s eq_refl)|]. split.
    + intros t T. unfold p1. subst v. exists (rebuild_prefix (parse (VStr t))). split; [reflexivity|]. intros k. unfold rebuild_prefix. cbn [flat_map].
      assert (G : forall ks, (forall q, In q ks -> q <> k) -> dget k (flat_map (fun k0 => match dget k0 (parse (VStr t)) with Some w => [(k0, w)] | None => [] end) ks) = None).
      { intros ks. induction ks as [|q ks IH]; intros N; [reflexivity|]. cbn [flat_map]. destruct (dget q (parse (VStr t))); cbn [app dget]; [|apply IH; intros y Y; apply N; right; exact Y]. assert (E : String.eqb k q = false) by (apply String.eqb_neq; intros E; apply (N q); [left; reflexivity|symmetry; exact E]). rewrite E. apply IH. intros y Y. apply N. right. exact Y. }
      assert (G2 : forall ks, NoDup ks -> In k ks -> dget k (flat_map (fun k0 => match dget k0 (parse (VStr t)) with Some w => [(k0, w)] | None => [] end) ks) = dget k (parse (VStr t))).
      { intros ks. induction ks as [|q ks IH]; intros NK I; [destruct I|]. inversion NK as [|y z N1 N2]. subst. cbn [flat_map]. destruct (string_dec k q) as [Q|Q].
        - subst q. destruct (dget k (parse (VStr t))); cbn [app dget]; [rewrite String.eqb_refl; reflexivity|]. apply G. intros y Y E. subst y. contradiction.
        - destruct I as [I|I]; [exfalso; apply Q; symmetry; exact I|]. destruct (dget q (parse (VStr t))); cbn [app dget]; [apply String.eqb_neq in Q; rewrite Q|]; exact (IH N2 I). }
      split; [intros I; apply (G2 ["ipv4"; "ipv6"; "allocation"; "_name"]); [|exact I]|intros I; apply (G ["ipv4"; "ipv6"; "allocation"; "_name"]); intros q Q E; subst q; contradiction].
      repeat constructor; cbn [In]; intros K; repeat (destruct K as [K|K]; [discriminate K|]); exact K.
    + split; [contradiction|]. intros _. rewrite SG. cbn [fst snd]. split; [reflexivity|]. destruct bad; split; intros K; try reflexivity; try discriminate K; [left; reflexivity|destruct K].
  - assert (NOWN : forall w, ~ own_prefix l w) by (intros w W; destruct (OWNV w W) as [_ [K|K]]; contradiction).
    rewrite (set_gateway_none _ _ _ CA) in SG. injection SG as G1 G2. subst gw bad. cbn [app] in H.
    assert (B : dmem "ipv4" (parse v) || dmem "ipv6" (parse v) = false).
    { apply orb_false_iff. split; [destruct (dmem "ipv4" (parse v)) eqn:M|destruct (dmem "ipv6" (parse v)) eqn:M]; try reflexivity; exfalso; apply CA; [left|right]; apply dmem_true; exact M. }
    destruct (pool_prefix pools nth_ip (mk_al (Some p1) (l_unn l) (l_pool l) (l_role l) (l_gw l)) defs (parse v)) as [[l2 r2] e2] eqn:PP.
    assert (EQ : (l2, r2, e2) = (l', r, errs)) by (rewrite B in H; destruct (parse v); [exfalso; apply CN; reflexivity|exact H]).
    injection EQ as Q1 Q2 Q3. subst l2 r2 e2. destruct (POOL _ _ _ _ _ (ND v) PP) as [P1 [P2 P3]]. cbn [l_unn l_pool l_role l_gw] in P1, P2, P3. split; [exact P1|]. split; [intros w W; exfalso; exact (NOWN w W)|]. split; [intros _; exact P2|]. intros _ U. unfold extra_of. rewrite LP. exact (P3 U).
Qed.
End Link.

(* ------------------------------------------------------------------ *)
(* Unnumbered interfaces                                                *)

Definition af_name (four : bool) : string := if four then "ipv4" else "ipv6".

Section Unnumbered.
Variable loopback : string -> option (dict val).
Variable parse_net : val -> option string.
Variable policy : string -> ulink -> string.
Variable ipam : string -> bool -> string -> list uintf -> list uintf * bool.
Variable host_bits : list uintf -> list uintf.

(* the address of an interface without one on an unnumbered link *)
Definition default_addr (four : bool) (pfx : option bool) (n : string) (v : option val) : Prop :=
  (forall b, pfx = Some b -> v = Some (VBool b)) /\
  (pfx = None -> forall d, loopback n = Some d -> exists b, v = Some (VBool b) /\ (b = true <-> exists a, dget (af_name four) d = Some a /\ truthy a = true)) /\
  (pfx = None -> loopback n = None -> v = if four then None else Some (VBool true)).

(* an interface before and after address assignment *)
Definition unnumbered_rel (four : bool) (pfx : option bool) (i j : uintf) : Prop :=
  u_node j = u_node i /\ uget (negb four) j = uget (negb four) i /\ (uget four i <> None -> uget four j = uget four i) /\ (uget four i = None -> default_addr four pfx (u_node i) (uget four j)).

Definition int_addr (four : bool) (i : uintf) : Prop := exists z, uget four i = Some (VInt z).

Lemma uget_uset : forall f g v i, uget f (uset g v i) = if Bool.eqb f g then v else uget f i.
Proof. intros [|] [|] v i; reflexivity. Qed.

Lemma u_node_uset : forall f v i, u_node (uset f v i) = u_node i.
Proof. intros [|] v i; reflexivity. Qed.

Lemma unnumbered_intf_spec : forall four pfx i, unnumbered_rel four pfx i (fst (unnumbered_intf loopback four pfx i)) /\ (snd (unnumbered_intf loopback four pfx i) = [] \/ snd (unnumbered_intf loopback four pfx i) = [u_node i]) /\
  (snd (unnumbered_intf loopback four pfx i) = [u_node i] <-> int_addr four i).
Proof.
  intros four pfx i. unfold unnumbered_intf, unnumbered_rel, int_addr. destruct (uget four i) as [v|] eqn:V.
  - assert (R : forall e, fst (i, e : list string) = i) by reflexivity.
    assert (OTHER : (forall z, v <> VInt z) -> (u_node i = u_node i /\ uget (negb four) i = uget (negb four) i /\ (Some v <> None -> uget four i = Some v) /\ (Some v = None -> default_addr four pfx (u_node i) (uget four i))) /\ (([] : list string) = [] \/ [] = [u_node i]) /\ ([] = [u_node i] <-> exists z, Some v = Some (VInt z))).
    { intros N. split; [split; [reflexivity|split; [reflexivity|split; [intros _; exact V|discriminate]]]|]. split; [left; reflexivity|]. split; [discriminate|]. intros [z E]. injection E as E. exfalso. exact (N z E). }
    destruct v as [|b|z|s|l|d]; cbn [fst snd]; try (apply OTHER; intros y; discriminate). split; [split; [reflexivity|split; [reflexivity|split; [intros _; exact V|discriminate]]]|]. split; [right; reflexivity|]. split; [intros _; exists z; reflexivity|reflexivity].
  - assert (SET : forall v, default_addr four pfx (u_node i) v -> (u_node (uset four v i) = u_node i /\ uget (negb four) (uset four v i) = uget (negb four) i /\ (@None val <> None -> uget four (uset four v i) = None) /\ (@None val = None -> default_addr four pfx (u_node i) (uget four (uset four v i)))) /\ (([] : list string) = [] \/ [] = [u_node i]) /\ ([] = [u_node i] <-> exists z, @None val = Some (VInt z))).
    { intros v D. split; [|split; [left; reflexivity|split; [discriminate|intros [z E]; discriminate E]]]. split; [apply u_node_uset|]. split; [rewrite uget_uset; destruct four; reflexivity|]. split; [intros K; exfalso; apply K; reflexivity|]. intros _. rewrite uget_uset, Bool.eqb_reflx. exact D. }
    destruct pfx as [b|]; cbn [fst snd].
    + apply SET. unfold default_addr. split; [intros c E; injection E as E; subst c; reflexivity|]. split; discriminate.
    + destruct (loopback (u_node i)) as [d|] eqn:L; cbn [fst snd].
      * apply SET. unfold default_addr. split; [discriminate|]. split; [|intros _ K; rewrite L in K; discriminate K]. intros _ d0 E. rewrite L in E. injection E as E. subst d0. eexists. split; [reflexivity|]. change (if four then "ipv4" else "ipv6") with (af_name four). destruct (dget (af_name four) d) as [a|]; [split; [intros T; exists a; split; [reflexivity|exact T]|intros [c [E T]]; injection E as E; subst c; exact T]|split; [discriminate|intros [c [E _]]; discriminate E]].
      * assert (DA : default_addr four None (u_node i) (if four then None else Some (VBool true))) by (unfold default_addr; split; [discriminate|]; split; [intros _ d E; rewrite L in E; discriminate E|intros _ _; reflexivity]).
        destruct four; [|apply SET; exact DA]. cbn [negb]. split; [|split; [left; reflexivity|split; [discriminate|intros [z E]; discriminate E]]]. split; [reflexivity|]. split; [reflexivity|]. split; [intros K; exfalso; apply K; reflexivity|]. intros _. rewrite V. exact DA.
Qed.

(* Unnumbered address family of a link *)
Theorem unnumbered_exact : forall four pfx l m e, ipam_unnumbered loopback four pfx l = (m, e) ->
  Forall2 (unnumbered_rel four pfx) l m /\ exists sel, e = map u_node (filter sel l) /\ forall i, sel i = true <-> int_addr four i.
Proof.
  intros four pfx l m e H. unfold ipam_unnumbered in H. injection H as H1 H2. subst m e. split.
  - induction l as [|i l IH]; cbn [map]; constructor; [apply unnumbered_intf_spec|exact IH].
  - exists (fun i => match snd (unnumbered_intf loopback four pfx i) with [] => false | _ => true end). split.
    + induction l as [|i l IH]; [reflexivity|]. cbn [flat_map filter]. destruct (unnumbered_intf_spec four pfx i) as [_ [[E|E] _]]; rewrite E; [exact IH|]. cbn [map app]. rewrite IH. reflexivity.
    + intros i. destruct (unnumbered_intf_spec four pfx i) as [_ [[E|E] F]]; rewrite E in *; rewrite <- F; split; intros K; try reflexivity; discriminate K.
Qed.

(* an unnumbered link *)
Theorem unnumbered_link_exact : forall l pfx, ul_prefix l = Some pfx -> In "unnumbered" (dkeys pfx) -> exists l' errs m, assign_addresses loopback parse_net policy ipam host_bits l = Some (l', errs) /\
  ul_prefix l' = None /\ ul_unn l' = false /\ Forall2 (unnumbered_rel true None) (ul_intf l) m /\ Forall2 (unnumbered_rel false None) m (ul_intf l') /\
  exists s4 s6, errs = map (fun i => BadIndex "ipv4" (u_node i)) (filter s4 (ul_intf l)) ++ map (fun i => BadIndex "ipv6" (u_node i)) (filter s6 m) /\ forall i, (s4 i = true <-> int_addr true i) /\ (s6 i = true <-> int_addr false i).
Proof.
  intros l pfx P U. unfold assign_addresses. rewrite P. apply dmem_true in U. destruct pfx as [|x pfx]; [discriminate U|]. rewrite U.
  destruct (ipam_unnumbered loopback true None (ul_intf l)) as [m4 e4] eqn:E4. destruct (ipam_unnumbered loopback false None m4) as [m6 e6] eqn:E6. apply unnumbered_exact in E4. apply unnumbered_exact in E6. destruct E4 as [F4 [s4 [S4 T4]]]. destruct E6 as [F6 [s6 [S6 T6]]].
  eexists. eexists. exists m4. split; [reflexivity|]. cbn [ul_prefix ul_unn ul_intf]. repeat (split; [first [reflexivity|assumption]|]). exists s4, s6. split; [rewrite S4, S6, !map_map; reflexivity|]. intros i. split; [apply T4|apply T6].
Qed.

(* addresses of one family: interfaces before and after, errors *)
Definition family (l : ulink) (pfx : dict val) (four : bool) (m m' : list uintf) (e : list uerror) : Prop :=
  (dget (af_name four) pfx = None -> m' = m /\ e = []) /\
  (forall b, dget (af_name four) pfx = Some (VBool b) -> Forall2 (unnumbered_rel four (Some b)) m m' /\ exists sel, e = map (fun i => BadIndex (af_name four) (u_node i)) (filter sel m) /\ forall i, sel i = true <-> int_addr four i) /\
  (forall v, dget (af_name four) pfx = Some v -> ~ is_bool v ->
     (parse_net v = None -> m' = m /\ e = [BadPrefix (af_name four)]) /\
     (forall n pol, parse_net v = Some n -> (dget "allocation" pfx = Some (VStr pol) \/ dget "allocation" pfx = None /\ policy n (mk_ul (ul_prefix l) (ul_unn l) m) = pol) ->
        (pol = "error" -> m' = m /\ e = [SmallPrefix (af_name four)]) /\
        (pol <> "error" -> m' = fst (ipam pol four n m) /\ (snd (ipam pol four n m) = true -> e = []) /\ (snd (ipam pol four n m) = false -> e = [NoAddress (af_name four)])))).

Definition valid_policy (p : string) : Prop := In p ["p2p"; "sequential"; "id_based"; "loopback"].

Lemma assign_af_spec : forall four l pfx, (forall n x, valid_policy (policy n x) \/ policy n x = "error") -> (dget "allocation" pfx = None \/ exists a, dget "allocation" pfx = Some (VStr a) /\ valid_policy a) ->
  exists m' e, assign_af loopback parse_net policy ipam four l pfx = Some (mk_ul (ul_prefix l) (ul_unn l) m', e) /\ family l pfx four (ul_intf l) m' e.
Proof.
  intros four l pfx VP VA. unfold assign_af. change (if four then "ipv4" else "ipv6") with (af_name four). unfold family. destruct (dget (af_name four) pfx) as [v|] eqn:V.
  2:{ exists (ul_intf l), []. split; [destruct l; reflexivity|]. split; [intros _; split; reflexivity|]. split; [discriminate|]. intros v E. discriminate E. }
  assert (NET : ~ is_bool v -> exists m' e, match parse_net v with
      | None => Some (l, [BadPrefix (af_name four)])
      | Some n =>
          let pol := match dget "allocation" pfx with Some (VStr a) => a | Some _ => "" | None => policy n l end in
          if String.eqb pol "error" then Some (l, [SmallPrefix (af_name four)])
          else if String.eqb pol "unnumbered" then let (m, e) := ipam_unnumbered loopback four None (ul_intf l) in Some (mk_ul (ul_prefix l) (ul_unn l) m, map (BadIndex (af_name four)) e)
          else if memS pol ipam_names then let (m, ok) := ipam pol four n (ul_intf l) in Some (mk_ul (ul_prefix l) (ul_unn l) m, if ok then [] else [NoAddress (af_name four)])
          else None
      end = Some (mk_ul (ul_prefix l) (ul_unn l) m', e) /\
    (Some v = None -> m' = ul_intf l /\ e = []) /\
    (forall b, Some v = Some (VBool b) -> Forall2 (unnumbered_rel four (Some b)) (ul_intf l) m' /\ exists sel, e = map (fun i => BadIndex (af_name four) (u_node i)) (filter sel (ul_intf l)) /\ forall i, sel i = true <-> int_addr four i) /\
    (forall w, Some v = Some w -> ~ is_bool w ->
     (parse_net w = None -> m' = ul_intf l /\ e = [BadPrefix (af_name four)]) /\
     (forall n pol, parse_net w = Some n -> (dget "allocation" pfx = Some (VStr pol) \/ dget "allocation" pfx = None /\ policy n (mk_ul (ul_prefix l) (ul_unn l) (ul_intf l)) = pol) ->
        (pol = "error" -> m' = ul_intf l /\ e = [SmallPrefix (af_name four)]) /\
        (pol <> "error" -> m' = fst (ipam pol four n (ul_intf l)) /\ (snd (ipam pol four n (ul_intf l)) = true -> e = []) /\ (snd (ipam pol four n (ul_intf l)) = false -> e = [NoAddress (af_name four)]))))).
  { intros NB. assert (LE : mk_ul (ul_prefix l) (ul_unn l) (ul_intf l) = l) by (destruct l; reflexivity). rewrite LE.
    destruct (parse_net v) as [n|] eqn:N.
    - set (pol := match dget "allocation" pfx with Some (VStr a) => a | Some _ => "" | None => policy n l end). cbv zeta.
      assert (SAME : forall q, dget "allocation" pfx = Some (VStr q) \/ dget "allocation" pfx = None /\ policy n l = q -> q = pol) by (intros q [K|[K1 K2]]; unfold pol; [rewrite K; reflexivity|rewrite K1; symmetry; exact K2]).
      assert (PV : pol = "error" \/ valid_policy pol).
      { unfold pol. destruct VA as [VA|[a [VA1 VA2]]]; [rewrite VA; destruct (VP n l) as [K|K]; [right|left]; exact K|rewrite VA1; right; exact VA2]. }
      clearbody pol. destruct (String.eqb_spec pol "error") as [E|E].
      + exists (ul_intf l), [SmallPrefix (af_name four)]. rewrite LE. split; [reflexivity|]. split; [discriminate|]. split; [intros b K; injection K as K; exfalso; apply NB; exists b; exact K|]. intros w W _. injection W as W. subst w. rewrite N. split; [discriminate|]. intros n0 q NQ Q. injection NQ as NQ. subst n0. apply SAME in Q. subst q. split; [intros _; split; reflexivity|contradiction].
      + destruct PV as [PV|PV]; [contradiction|]. assert (U : String.eqb pol "unnumbered" = false) by (destruct PV as [K|[K|[K|[K|[]]]]]; subst pol; reflexivity). assert (M : memS pol ipam_names = true) by (destruct PV as [K|[K|[K|[K|[]]]]]; subst pol; reflexivity). rewrite U, M.
        destruct (ipam pol four n (ul_intf l)) as [m ok] eqn:IP. exists m, (if ok then [] else [NoAddress (af_name four)]). split; [reflexivity|]. split; [discriminate|]. split; [intros b K; injection K as K; exfalso; apply NB; exists b; exact K|]. intros w W _. injection W as W. subst w. rewrite N. split; [discriminate|]. intros n0 q NQ Q. injection NQ as NQ. subst n0. apply SAME in Q. subst q. split; [contradiction|]. intros _. rewrite IP. cbn [fst snd]. split; [reflexivity|]. split; intros K; subst ok; reflexivity.
    - exists (ul_intf l), [BadPrefix (af_name four)]. rewrite LE. split; [reflexivity|]. split; [discriminate|]. split; [intros b K; injection K as K; exfalso; apply NB; exists b; exact K|]. intros w W _. injection W as W. subst w. split; [intros _; split; reflexivity|]. intros n pol K. rewrite N in K. discriminate K. }
  destruct v as [|b|z|s|q|d]; try (apply NET; intros [c K]; discriminate K). clear NET.
  destruct (ipam_unnumbered loopback four (Some b) (ul_intf l)) as [m e] eqn:IU. apply unnumbered_exact in IU. destruct IU as [F [sel [S T]]]. exists m, (map (BadIndex (af_name four)) e). split; [reflexivity|]. split; [discriminate|]. split.
  - intros c K. injection K as K. subst c. split; [exact F|]. exists sel. split; [rewrite S, map_map; reflexivity|exact T].
  - intros w W NB. injection W as W. subst w. exfalso. apply NB. exists b. reflexivity.
Qed.

(* Addresses of a link with prefixes and valid allocation policies: IPv4 before IPv6, every family on its own; the host bits are
   checked when there were no errors. *)
Theorem assign_addresses_exact : forall l pfx, ul_prefix l = Some pfx -> pfx <> [] -> ~ In "unnumbered" (dkeys pfx) ->
  (forall n x, valid_policy (policy n x) \/ policy n x = "error") -> (dget "allocation" pfx = None \/ exists a, dget "allocation" pfx = Some (VStr a) /\ valid_policy a) ->
  exists l' errs m4 m6 e4 e6, assign_addresses loopback parse_net policy ipam host_bits l = Some (l', errs) /\ ul_prefix l' = Some pfx /\ ul_unn l' = ul_unn l /\
    family l pfx true (ul_intf l) m4 e4 /\ family l pfx false m4 m6 e6 /\ errs = e4 ++ e6 /\ (errs = [] -> ul_intf l' = host_bits m6) /\ (errs <> [] -> ul_intf l' = m6).
Proof.
  intros l pfx P NE NU VP VA. unfold assign_addresses. rewrite P. assert (U : dmem "unnumbered" pfx = false) by (destruct (dmem "unnumbered" pfx) eqn:M; [exfalso; apply NU; apply dmem_true; exact M|reflexivity]).
  destruct (assign_af_spec true l pfx VP VA) as [m4 [e4 [A4 F4]]]. destruct (assign_af_spec false (mk_ul (ul_prefix l) (ul_unn l) m4) pfx VP VA) as [m6 [e6 [A6 F6]]]. cbn [ul_prefix ul_unn ul_intf] in *.
  destruct pfx as [|x pfx]; [exfalso; apply NE; reflexivity|]. rewrite U, A4, A6. cbn [ul_prefix ul_unn ul_intf].
  destruct (e4 ++ e6) as [|y e] eqn:E.
  - eexists. exists [], m4, m6, e4, e6. split; [reflexivity|]. cbn [ul_prefix ul_unn ul_intf]. split; [exact P|]. split; [reflexivity|]. split; [exact F4|]. split; [exact F6|]. split; [symmetry; exact E|]. split; [reflexivity|]. intros K. exfalso. apply K. reflexivity.
  - eexists. exists (y :: e), m4, m6, e4, e6. split; [reflexivity|]. cbn [ul_prefix ul_unn ul_intf]. split; [exact P|]. split; [reflexivity|]. split; [exact F4|]. split; [exact F6|]. split; [symmetry; exact E|]. split; [discriminate|reflexivity].
Qed.
End Unnumbered.

(* ------------------------------------------------------------------ *)
(* Unused address families                                              *)

Definition wrong_addr (v : val) : Prop := (exists z, v = VInt z) \/ exists s, v = VStr s /\ ~ exists a b, s = (a ++ String "/" b)%string.
Definition address (v : val) : Prop := is_bool v \/ (exists z, v = VInt z) \/ exists s, v = VStr s.
Definition cleaned (v v' : option val) : Prop := (v = Some (VBool false) -> v' = None) /\ (v <> Some (VBool false) -> v' = v).

Lemma has_slash_iff : forall s, has_slash s = true <-> exists a b, s = (a ++ String "/" b)%string.
Proof.
  intros s. unfold has_slash. induction s as [|c s IH]; cbn [list_ascii_of_string existsb].
  - split; [discriminate|]. intros [a [b E]]. destruct a; discriminate E.
  - rewrite orb_true_iff, IH. split.
    + intros [K|[a [b E]]]; [apply Ascii.eqb_eq in K; subst c; exists "", s; reflexivity|exists (String c a), b; rewrite E; reflexivity].
    + intros [a [b E]]. destruct a as [|x a]; injection E as E1 E2; [left; subst c; apply Ascii.eqb_refl|right; exists a, b; exact E2].
Qed.

Lemma cleanup_af_spec : forall four i, (forall v, uget four i = Some v -> address v) ->
  u_node (fst (cleanup_af four i)) = u_node i /\ cleaned (uget four i) (uget four (fst (cleanup_af four i))) /\ uget (negb four) (fst (cleanup_af four i)) = uget (negb four) i /\
  (snd (cleanup_af four i) = true <-> exists v, uget four i = Some v /\ wrong_addr v).
Proof.
  intros four i AD. unfold cleanup_af, cleaned. destruct (uget four i) as [v|] eqn:V.
  - destruct v as [|[|]|z|s|l|d]; cbn [fst snd].
    + exfalso. destruct (AD VNull eq_refl) as [[b K]|[[z K]|[s K]]]; discriminate K.
    + split; [reflexivity|]. split; [split; [discriminate|intros _; exact V]|]. split; [reflexivity|]. split; [discriminate|]. intros [v [E [[z K]|[s [K _]]]]]; injection E as E; subst v; discriminate K.
    + split; [apply u_node_uset|]. split; [split; [intros _; rewrite uget_uset, Bool.eqb_reflx; reflexivity|intros K; exfalso; apply K; reflexivity]|]. split; [rewrite uget_uset; destruct four; reflexivity|]. split; [discriminate|]. intros [v [E [[z K]|[s [K _]]]]]; injection E as E; subst v; discriminate K.
    + split; [reflexivity|]. split; [split; [discriminate|intros _; exact V]|]. split; [reflexivity|]. split; [intros _; exists (VInt z); split; [reflexivity|left; exists z; reflexivity]|reflexivity].
    + split; [reflexivity|]. split; [split; [discriminate|intros _; exact V]|]. split; [reflexivity|]. pose proof (has_slash_iff s) as HS. destruct (has_slash s); cbn [negb].
      * split; [discriminate|]. intros [v [E [[z K]|[t [K N]]]]]; injection E as E; subst v; [discriminate K|]. injection K as K. subst t. exfalso. apply N. apply HS. reflexivity.
      * split; [|reflexivity]. intros _. exists (VStr s). split; [reflexivity|]. right. exists s. split; [reflexivity|]. intros K. apply HS in K. discriminate K.
    + exfalso. destruct (AD (VList l) eq_refl) as [[b K]|[[z K]|[s K]]]; discriminate K.
    + exfalso. destruct (AD (VDict d) eq_refl) as [[b K]|[[z K]|[s K]]]; discriminate K.
  - cbn [fst snd]. split; [reflexivity|]. split; [split; [discriminate|intros _; exact V]|]. split; [reflexivity|]. split; [discriminate|intros [v [K _]]; discriminate K].
Qed.

(* False addresses are removed, host indices and addresses without a prefix length are errors. *)
Theorem cleanup_link_exact : forall l m errs, (forall i f v, In i l -> uget f i = Some v -> address v) -> cleanup_link l = (m, errs) ->
  Forall2 (fun i j => u_node j = u_node i /\ cleaned (u_v4 i) (u_v4 j) /\ cleaned (u_v6 i) (u_v6 j)) l m /\
  exists s4 s6, errs = map (fun i => (true, u_node i)) (filter s4 l) ++ map (fun i => (false, u_node i)) (filter s6 l) /\
    forall i, In i l -> (s4 i = true <-> exists v, u_v4 i = Some v /\ wrong_addr v) /\ (s6 i = true <-> exists v, u_v6 i = Some v /\ wrong_addr v).
Proof.
  intros l m errs AD H. unfold cleanup_link in H. cbv zeta in H. injection H as H1 H2.
  assert (AD6 : forall i, In i l -> forall v, uget false (fst (cleanup_af true i)) = Some v -> address v).
  { intros i I v E. destruct (cleanup_af_spec true i (fun w W => AD i true w I W)) as [_ [_ [K _]]]. change (negb true) with false in K. rewrite K in E. exact (AD i false v I E). }
  split.
  - subst m. rewrite map_map. clear H2. induction l as [|i l IH]; cbn [map]; constructor.
    + destruct (cleanup_af_spec true i (fun w W => AD i true w (or_introl eq_refl) W)) as [A1 [A2 [A3 _]]]. destruct (cleanup_af_spec false (fst (cleanup_af true i)) (AD6 i (or_introl eq_refl))) as [B1 [B2 [B3 _]]]. cbn [negb] in *.
      split; [rewrite B1; exact A1|]. split.
      * change (u_v4 i) with (uget true i). change (u_v4 (fst (cleanup_af false (fst (cleanup_af true i))))) with (uget true (fst (cleanup_af false (fst (cleanup_af true i))))). rewrite B3. exact A2.
      * change (u_v6 i) with (uget false i). rewrite <- A3. exact B2.
    + apply IH; [intros j f v J; apply AD; right; exact J|intros j J; apply AD6; right; exact J].
  - exists (fun i => snd (cleanup_af true i)), (fun i => snd (cleanup_af false (fst (cleanup_af true i)))). split.
    + subst errs. f_equal.
      * clear. induction l as [|i l IH]; [reflexivity|]. cbn [flat_map filter]. rewrite IH. destruct (snd (cleanup_af true i)); reflexivity.
      * clear -AD. induction l as [|i l IH]; [reflexivity|]. cbn [map flat_map filter]. rewrite IH by (intros j f v J; apply AD; right; exact J). destruct (cleanup_af_spec true i (fun w W => AD i true w (or_introl eq_refl) W)) as [A1 _]. rewrite A1. destruct (snd (cleanup_af false (fst (cleanup_af true i)))); reflexivity.
    + intros i I. destruct (cleanup_af_spec true i (fun w W => AD i true w I W)) as [_ [_ [A3 A4]]]. destruct (cleanup_af_spec false (fst (cleanup_af true i)) (AD6 i I)) as [_ [_ [_ B4]]]. split; [exact A4|]. change (u_v6 i) with (uget (negb true) i). rewrite <- A3. exact B4.
Qed.

(* Links without prefixes are not changed. *)
Theorem assign_no_prefix : forall loopback parse_net policy ipam host_bits l, ul_prefix l = None \/ ul_prefix l = Some [] -> assign_addresses loopback parse_net policy ipam host_bits l = Some (l, []).
Proof. intros lb pn po ip hb l [H|H]; unfold assign_addresses; rewrite H; reflexivity. Qed.

(* ------------------------------------------------------------------ *)
(* Examples                                                             *)

Definition ex_known (p : string) : bool := String.eqb p "lan".
Definition ex_alloc (p : string) (k : nat) : dict val := [("ipv4", VStr (nth k ["172.16.0.0/24"; "172.16.1.0/24"] "172.16.2.0/24"))].
Definition ex_named : dict (dict val) :=
  [("red", [("pool", VStr "lan")]); ("fix", [("ipv4", VStr "10.0.0.0/24")]); ("bad", [("pool", VStr "mystery")]); ("blue", [("pool", VStr "lan"); ("allocation", VStr "id_based")])].

Example ex_setup : setup_prefixes ex_known ex_alloc ex_named =
  mk_ns [("red", [("_name", VStr "red"); ("ipv4", VStr "172.16.0.0/24")]); ("fix", [("ipv4", VStr "10.0.0.0/24")]); ("bad", [("pool", VStr "mystery"); ("_name", VStr "bad")]);
         ("blue", [("allocation", VStr "id_based"); ("_name", VStr "blue"); ("ipv4", VStr "172.16.1.0/24")])] ["lan"; "lan"] ["bad"].
Proof. vm_compute. reflexivity. Qed.

Example ex_stable : let s := setup_prefixes ex_known ex_alloc ex_named in
  evaluate ex_known ex_alloc s "red" = (s, [("_name", VStr "red"); ("ipv4", VStr "172.16.0.0/24")]) /\ (forall p k, NoDup (dkeys (ex_alloc p k)) /\ dget "_name" (ex_alloc p k) = None).
Proof. split; [vm_compute; reflexivity|]. intros p k. split; [constructor; [intros []|constructor]|reflexivity]. Qed.

Definition ex_net (v : val) : option string := match v with VStr "10.0.0.0/24" => Some "10.0.0.0/24" | VStr "2001:db8::/64" => Some "2001:db8::/64" | _ => None end.
Definition ex_net4 (s : string) : option string := if String.eqb s "10.0.0.0/24" then Some s else None.

Example ex_parse : let s := setup_prefixes ex_known ex_alloc ex_named in
  parse_prefix ex_known ex_alloc ex_net4 ex_net s (VDict [("ip", VStr "10.0.0.0/24"); ("ipv6", VBool true)]) = (s, [("ipv6", VBool true); ("ipv4", VStr "10.0.0.0/24")], false) /\
  parse_prefix ex_known ex_alloc ex_net4 ex_net s (VDict [("ipv4", VStr "wrong")]) = (s, [], true) /\
  parse_prefix ex_known ex_alloc ex_net4 ex_net s (VStr "blue") = (s, [("allocation", VStr "id_based"); ("_name", VStr "blue"); ("ipv4", VStr "172.16.1.0/24")], false) /\
  parse_prefix ex_known ex_alloc ex_net4 ex_net s (VStr "10.0.0.0/24") = (s, [("ipv4", VStr "10.0.0.0/24")], false).
Proof. vm_compute. repeat split. Qed.

Definition ex_nth (v : val) (n : Z) : option string := match v with VStr s => if (n <? 200)%Z then Some (s ++ "#1")%string else None | _ => None end.
Definition ex_pl : dict (dict val) := [("lan", [("ipv4", VStr "172.16.0.0/24"); ("ipv6", VBool true)]); ("p2p", [("ipv4", VStr "10.1.0.0/30")])].
Definition ex_prs (v : val) : dict val := match v with VStr s => [("ipv4", VStr s); ("x", VNull)] | VDict d => d | _ => [] end.

Example ex_gateway : set_gateway ex_nth (Some (VDict [("ipv4", VStr "172.16.0.0/24"); ("ipv6", VBool true)])) [("ipv4", VStr "172.16.0.0/24"); ("ipv6", VBool true)] (Some (1%Z, [("protocol", VStr "anycast")])) =
    (Some (1%Z, [("protocol", VStr "anycast"); ("ipv4", VStr "172.16.0.0/24#1")]), false) /\
  set_gateway ex_nth (Some (VDict [("ipv4", VStr "172.16.0.0/24")])) [("ipv4", VStr "172.16.0.0/24")] (Some (250%Z, [])) = (Some (250%Z, []), true).
Proof. vm_compute. split; reflexivity. Qed.

Example ex_link_prefix :
  link_prefix ex_prs ex_pl ex_nth (mk_al None false (Some "mystery") None (Some (1%Z, []))) ["core"; "lan"] =
    (mk_al (Some (VDict [("ipv4", VStr "172.16.0.0/24"); ("ipv6", VBool true)])) false (Some "mystery") None (Some (1%Z, [("ipv4", VStr "172.16.0.0/24#1")])), [("ipv4", VStr "172.16.0.0/24"); ("ipv6", VBool true)], [UnknownPool "mystery"]) /\
  link_prefix ex_prs ex_pl ex_nth (mk_al (Some (VDict [("allocation", VStr "p2p")])) false None (Some "p2p") None) ["lan"] =
    (mk_al (Some (VDict [("ipv4", VStr "10.1.0.0/30"); ("allocation", VStr "p2p")])) false None (Some "p2p") None, [("ipv4", VStr "10.1.0.0/30")], []) /\
  link_prefix ex_prs ex_pl ex_nth (mk_al (Some (VStr "10.0.0.0/24")) false None None None) ["lan"] =
    (mk_al (Some (VDict [("ipv4", VStr "10.0.0.0/24")])) false None None None, [("ipv4", VStr "10.0.0.0/24"); ("x", VNull)], []).
Proof. vm_compute. repeat split. Qed.

Definition ex_loopback (n : string) : option (dict val) := if String.eqb n "r1" then Some [("ipv4", VStr "10.0.0.1/32")] else None.
Definition ex_policy (n : string) (l : ulink) : string := match ul_intf l with [_; _] => "p2p" | _ => "error" end.
Definition ex_ipam (p : string) (four : bool) (n : string) (l : list uintf) : list uintf * bool := (map (uset four (Some (VStr (n ++ "!")%string))) l, true).

Example ex_unnumbered : ipam_unnumbered ex_loopback true None [mk_ui "r1" None None; mk_ui "h1" None None; mk_ui "r2" (Some (VInt 3)) None] =
    ([mk_ui "r1" (Some (VBool true)) None; mk_ui "h1" None None; mk_ui "r2" (Some (VInt 3)) None], ["r2"]) /\
  assign_addresses ex_loopback ex_net ex_policy ex_ipam (fun l => l) (mk_ul (Some [("unnumbered", VBool true)]) true [mk_ui "r1" None None; mk_ui "r2" None (Some (VInt 1))]) =
    Some (mk_ul None false [mk_ui "r1" (Some (VBool true)) (Some (VBool false)); mk_ui "r2" None (Some (VInt 1))], [BadIndex "ipv6" "r2"]).
Proof. vm_compute. split; reflexivity. Qed.

Example ex_assign : assign_addresses ex_loopback ex_net ex_policy ex_ipam (fun l => l) (mk_ul (Some [("ipv6", VBool true); ("ipv4", VStr "10.0.0.0/24")]) false [mk_ui "r1" None None; mk_ui "r2" None None]) =
    Some (mk_ul (Some [("ipv6", VBool true); ("ipv4", VStr "10.0.0.0/24")]) false [mk_ui "r1" (Some (VStr "10.0.0.0/24!")) (Some (VBool true)); mk_ui "r2" (Some (VStr "10.0.0.0/24!")) (Some (VBool true))], []) /\
  (forall n x, valid_policy (ex_policy n x) \/ ex_policy n x = "error").
Proof. split; [vm_compute; reflexivity|]. intros n x. unfold ex_policy. destruct (ul_intf x) as [|a [|b [|c r]]]; [right; reflexivity|right; reflexivity|left; left; reflexivity|right; reflexivity]. Qed.

Example ex_assign_small : assign_addresses ex_loopback ex_net ex_policy ex_ipam (fun l => l) (mk_ul (Some [("ipv4", VStr "10.0.0.0/24"); ("ipv6", VStr "no")]) false [mk_ui "r1" None None]) =
    Some (mk_ul (Some [("ipv4", VStr "10.0.0.0/24"); ("ipv6", VStr "no")]) false [mk_ui "r1" None None], [SmallPrefix "ipv4"; BadPrefix "ipv6"]).
Proof. vm_compute. reflexivity. Qed.

Example ex_cleanup : cleanup_link [mk_ui "r1" (Some (VStr "10.0.0.1/24")) (Some (VBool false)); mk_ui "r2" (Some (VInt 2)) (Some (VStr "2001:db8::1")); mk_ui "r3" (Some (VBool true)) None] =
  ([mk_ui "r1" (Some (VStr "10.0.0.1/24")) None; mk_ui "r2" (Some (VInt 2)) (Some (VStr "2001:db8::1")); mk_ui "r3" (Some (VBool true)) None], [(true, "r2"); (false, "r2")]).
Proof. vm_compute. reflexivity. Qed.

Print Assumptions setup_prefixes_exact.
Print Assumptions named_prefix_stable.
Print Assumptions parse_prefix_exact.
Print Assumptions parse_text_exact.
Print Assumptions set_gateway_exact.
Print Assumptions link_prefix_exact.
Print Assumptions unnumbered_exact.
Print Assumptions unnumbered_link_exact.
Print Assumptions assign_addresses_exact.
Print Assumptions assign_no_prefix.
Print Assumptions cleanup_link_exact.
