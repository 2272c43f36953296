(* Properties C176-C178: the primary provider, providers of nodes and links, management addresses. *)
From Coq Require Import String Ascii ZArith Lia Bool List.
From Verif Require Import Base Box_Model Box_Props Prov_Model.
Import ListNotations.
Local Open Scope string_scope.
Local Open Scope list_scope.

(* ------------------------------------------------------------------ *)
(* Specification                                                        *)

(* the provider of a node in a topology with a default provider *)
Definition provides (def : string) (n : pnode) (p : string) : Prop := pn_prov n = Some p \/ pn_prov n = None /\ def = p.

(* a provider used by a node *)
Definition used_in (t : ptopo) (p : string) : Prop := exists x n, In (x, n) (pt_nodes t) /\ provides (pt_prov t) n p.

(* the first provider of a list that is used *)
Definition first_used (t : ptopo) (multi : list string) (p : string) : Prop :=
  exists a b, multi = a ++ p :: b /\ used_in t p /\ forall q, In q a -> ~ used_in t q.

(* the provider of the topology after the selection *)
Definition primary (t : ptopo) (multi : list string) (p : string) : Prop :=
  (used_in t p /\ forall q, used_in t q -> q = p) \/
  ((exists q r, used_in t q /\ used_in t r /\ q <> r) /\
   (first_used t multi p \/ (p = pt_prov t /\ forall q, In q multi -> ~ used_in t q))) \/
  (pt_nodes t = [] /\ p = pt_prov t).

(* ------------------------------------------------------------------ *)

Lemma provides_iff : forall def n p, provides def n p <-> get_provider def n = p.
Proof.
  intros def n p. unfold provides, get_provider. destruct (pn_prov n) as [q|].
  - split; [intros [H|[H _]]; [injection H as H; exact H|discriminate H]|intros H; left; rewrite H; reflexivity].
  - split; [intros [H|[_ H]]; [discriminate H|exact H]|intros H; right; split; [reflexivity|exact H]].
Qed.

Lemma used_iff : forall t p, used_in t p <-> In p (map (fun x => get_provider (pt_prov t) (snd x)) (pt_nodes t)).
Proof.
  intros t p. unfold used_in. rewrite in_map_iff. split.
  - intros [x [n [I H]]]. exists (x, n). split; [apply provides_iff in H; exact H|exact I].
  - intros [[x n] [H I]]. exists x, n. split; [exact I|apply provides_iff; exact H].
Qed.

Lemma single_some : forall l u, single l = Some u <-> In u l /\ forall q, In q l -> q = u.
Proof.
  intros [|x r] u; cbn [single]; [split; [discriminate|intros [[] _]]|]. destruct (forallb (String.eqb x) r) eqn:F.
  - rewrite forallb_forall in F. split.
    + intros H. injection H as H. subst u. split; [left; reflexivity|]. intros q [Q|Q]; [symmetry; exact Q|]. specialize (F q Q). apply String.eqb_eq in F. symmetry. exact F.
    + intros [_ H]. rewrite (H x (or_introl eq_refl)). reflexivity.
  - split; [discriminate|]. intros [_ H]. exfalso. assert (T : forallb (String.eqb x) r = true); [|rewrite T in F; discriminate F].
    apply forallb_forall. intros q Q. apply String.eqb_eq. rewrite (H x (or_introl eq_refl)), (H q (or_intror Q)). reflexivity.
Qed.

Lemma single_none : forall l, single l = None -> l = [] \/ exists q r, In q l /\ In r l /\ q <> r.
Proof.
  intros [|x r] H; [left; reflexivity|]. right. cbn [single] in H. destruct (forallb (String.eqb x) r) eqn:F; [discriminate H|].
  assert (G : exists q, In q r /\ x <> q).
  { clear H. induction r as [|y r IH]; [discriminate F|]. cbn [forallb] in F. destruct (String.eqb_spec x y) as [Q|Q].
    - cbn [andb] in F. destruct (IH F) as [q [I N]]. exists q. split; [right; exact I|exact N].
    - exists y. split; [left; reflexivity|exact Q]. }
  destruct G as [q [I N]]. exists x, q. split; [left; reflexivity|]. split; [right; exact I|exact N].
Qed.

Lemma filter_first : forall {A} (f : A -> bool) l x r, filter f l = x :: r -> exists a b, l = a ++ x :: b /\ f x = true /\ forall y, In y a -> f y = false.
Proof.
  intros A f l. induction l as [|z l IH]; intros x r H; [discriminate H|]. cbn [filter] in H. destruct (f z) eqn:F.
  - injection H as H1 H2. subst z. exists [], l. split; [reflexivity|]. split; [exact F|intros y []].
  - destruct (IH x r H) as [a [b [E [T N]]]]. exists (z :: a), b. split; [rewrite E; reflexivity|]. split; [exact T|]. intros y [Y|Y]; [subst y; exact F|exact (N y Y)].
Qed.

(* The primary provider; a warning is printed exactly when it changes. *)
Theorem primary_exact : forall multi t t' w, select_primary multi t = (t', w) ->
  primary t multi (pt_prov t') /\ (w = true <-> pt_prov t' <> pt_prov t).
Proof.
  intros multi t t' w H. unfold select_primary in H. pose proof (used_iff t) as U. unfold primary.
  set (used := map (fun x => get_provider (pt_prov t) (snd x)) (pt_nodes t)) in *.
  assert (EMP : used = [] -> pt_nodes t = []) by (unfold used; destruct (pt_nodes t); [reflexivity|discriminate]). clearbody used.
  assert (MX : forall r, (match filter (fun p => memS p used) multi with
      | [] => (t, false)
      | top :: _ => if String.eqb top (pt_prov t) then (t, false) else (mk_pt top top (pin_all (pt_prov t) (pt_nodes t)), true)
      end) = r -> (first_used t multi (pt_prov (fst r)) \/ (pt_prov (fst r) = pt_prov t /\ forall q, In q multi -> ~ used_in t q)) /\ (snd r = true <-> pt_prov (fst r) <> pt_prov t)).
  { intros r R. destruct (filter (fun p => memS p used) multi) as [|top rest] eqn:F.
    - subst r. cbn [fst snd]. split.
      + right. split; [reflexivity|]. intros q Q K. apply U in K. assert (I : In q (filter (fun p => memS p used) multi)) by (apply filter_In; split; [exact Q|apply memS_true; exact K]). rewrite F in I. destruct I.
      + split; [discriminate|]. intros N. exfalso. apply N. reflexivity.
    - destruct (filter_first _ _ _ _ F) as [a [b [E [T N]]]]. assert (FU : first_used t multi top).
      { exists a, b. split; [exact E|]. split; [apply U; apply memS_true; exact T|]. intros q Q K. apply U in K. apply memS_true in K. rewrite (N q Q) in K. discriminate K. }
      destruct (String.eqb_spec top (pt_prov t)) as [Q|Q].
      + subst r. cbn [fst snd]. rewrite <- Q. split; [left; exact FU|]. split; [discriminate|]. intros K. exfalso. apply K. reflexivity.
      + subst r. cbn [fst snd pt_prov]. split; [left; exact FU|]. split; [intros _; exact Q|reflexivity]. }
  destruct (single used) as [u|] eqn:S1.
  - apply single_some in S1. destruct S1 as [I A]. destruct (String.eqb_spec (pt_prov t) u) as [Q|Q].
    + specialize (MX _ H). cbn [fst snd] in MX. destruct MX as [M W]. split; [|exact W]. left.
      assert (E : pt_prov t' = u).
      { destruct M as [[a [b [_ [K _]]]]|[K _]]; [apply U in K; exact (A _ K)|rewrite K; exact Q]. }
      rewrite E. split; [apply U; exact I|]. intros q K. apply U in K. exact (A q K).
    + injection H as H1 H2. subst t' w. cbn [pt_prov]. split.
      * left. split; [apply U; exact I|]. intros q K. apply U in K. exact (A q K).
      * split; [intros _ K; apply Q; symmetry; exact K|reflexivity].
  - specialize (MX _ H). cbn [fst snd] in MX. destruct MX as [M W]. split; [|exact W]. apply single_none in S1. destruct S1 as [S1|[q [r [IQ [IR N]]]]].
    + right. right. split; [exact (EMP S1)|]. destruct M as [[a [b [_ [K _]]]]|[K _]]; [apply U in K; rewrite S1 in K; destruct K|exact K].
    + right. left. split; [exists q, r; split; [apply U; exact IQ|]; split; [apply U; exact IR|exact N]|exact M].
Qed.

Lemma dkeys_pin_all : forall p nodes, dkeys (pin_all p nodes) = dkeys nodes.
Proof. intros p nodes. unfold dkeys, pin_all. rewrite map_map. reflexivity. Qed.

(* Nodes are not affected: every node has the same provider as before, whether it is looked up with the provider of the
   topology or with the default provider. *)
Theorem primary_nodes_kept : forall multi t t' w, pt_def t = pt_prov t -> select_primary multi t = (t', w) ->
  length (pt_nodes t') = length (pt_nodes t) /\
  forall k x n, nth_error (pt_nodes t) k = Some (x, n) -> exists n', nth_error (pt_nodes t') k = Some (x, n') /\ pn_unm n' = pn_unm n /\
    (forall p, pn_prov n = Some p -> pn_prov n' = Some p) /\
    forall p, provides (pt_prov t) n p -> provides (pt_prov t') n' p /\ provides (pt_def t') n' p.
Proof.
  intros multi t t' w D H. unfold select_primary in H.
  assert (SAME : length (pt_nodes t) = length (pt_nodes t) /\
    forall k x n, nth_error (pt_nodes t) k = Some (x, n) -> exists n', nth_error (pt_nodes t) k = Some (x, n') /\ pn_unm n' = pn_unm n /\
      (forall p, pn_prov n = Some p -> pn_prov n' = Some p) /\
      forall p, provides (pt_prov t) n p -> provides (pt_prov t) n' p /\ provides (pt_def t) n' p).
  { split; [reflexivity|]. intros k x n N. exists n. split; [exact N|]. split; [reflexivity|]. split; [intros p P; exact P|]. intros p P. rewrite D. split; exact P. }
  set (used := map (fun x => get_provider (pt_prov t) (snd x)) (pt_nodes t)) in *.
  assert (MX : forall r, (match filter (fun p => memS p used) multi with
      | [] => (t, false)
      | top :: _ => if String.eqb top (pt_prov t) then (t, false) else (mk_pt top top (pin_all (pt_prov t) (pt_nodes t)), true)
      end) = (t', r) -> length (pt_nodes t') = length (pt_nodes t) /\
    forall k x n, nth_error (pt_nodes t) k = Some (x, n) -> exists n', nth_error (pt_nodes t') k = Some (x, n') /\ pn_unm n' = pn_unm n /\
      (forall p, pn_prov n = Some p -> pn_prov n' = Some p) /\
      forall p, provides (pt_prov t) n p -> provides (pt_prov t') n' p /\ provides (pt_def t') n' p).
  { intros r R. destruct (filter (fun p => memS p used) multi) as [|top rest]; [injection R as R1 R2; subst t'; exact SAME|].
    destruct (String.eqb top (pt_prov t)); [injection R as R1 R2; subst t'; exact SAME|]. injection R as R1 R2. subst t'. cbn [pt_nodes pt_prov pt_def].
    unfold pin_all. split; [apply map_length|]. intros k x n N. exists (pin (pt_prov t) n). split; [exact (map_nth_error (fun y => (fst y, pin (pt_prov t) (snd y))) k (pt_nodes t) N)|].
    unfold pin, provides. destruct (pn_prov n) as [q|] eqn:PQ.
    - rewrite PQ. split; [reflexivity|]. split; [intros p P; exact P|]. intros p [P|[P _]]; [split; left; exact P|discriminate P].
    - cbn [pn_unm pn_prov]. split; [reflexivity|]. split; [discriminate|]. intros p [P|[_ P]]; [discriminate P|]. subst p. split; left; reflexivity. }
  destruct (single used) as [u|] eqn:S1; [|exact (MX w H)]. destruct (String.eqb_spec (pt_prov t) u) as [Q|Q]; [exact (MX w H)|].
  injection H as H1 H2. subst t' w. cbn [pt_nodes pt_prov pt_def]. split; [reflexivity|]. intros k x n N. exists n. split; [exact N|]. split; [reflexivity|]. split; [intros p P; exact P|].
  intros p P. apply single_some in S1. destruct S1 as [_ A]. destruct P as [P|[P1 P2]]; [split; left; exact P|]. exfalso. apply Q. apply A. unfold used. apply in_map_iff.
  exists (x, n). split; [unfold get_provider; cbn [snd]; rewrite P1; reflexivity|exact (nth_error_In _ _ N)].
Qed.

(* Refuted: the primary provider is used by a node. *)
Theorem primary_unused_refuted :
  let n p := mk_pn (Some p) false in
  let t := mk_pt "libvirt" "libvirt" [("a", n "external"); ("b", n "virtualbox")] in
  select_primary ["libvirt"; "clab"] t = (t, false) /\ ~ used_in t "libvirt".
Proof.
  split; [reflexivity|]. intros [x [n [I H]]]. cbn [pt_nodes In] in I.
  destruct I as [I|[I|[]]]; injection I as I1 I2; subst n; destruct H as [H|[H _]]; discriminate H.
Qed.

(* ------------------------------------------------------------------ *)
(* Providers of links                                                   *)

Lemma mark_spec : forall nodes prov l d p,
  dmem p (fold_left (fun d x => match dget x nodes with Some n => dset (get_provider prov n) true d | None => d end) l d) = true <->
  dmem p d = true \/ exists x n, In x l /\ dget x nodes = Some n /\ get_provider prov n = p.
Proof.
  intros nodes prov l. induction l as [|y l IH]; intros d p; cbn [fold_left].
  - split; [intros H; left; exact H|intros [H|[x [n [[] _]]]]; exact H].
  - rewrite IH. destruct (dget y nodes) as [m|] eqn:G.
    + assert (DM : dmem p (dset (get_provider prov m) true d) = true <-> get_provider prov m = p \/ dmem p d = true).
      { unfold dmem. destruct (string_dec (get_provider prov m) p) as [Q|Q].
        - subst p. rewrite dget_dset_same. split; [intros _; left; reflexivity|reflexivity].
        - rewrite dget_dset_other by (intros K; apply Q; symmetry; exact K). split; [intros K; right; exact K|intros [K|K]; [contradiction|exact K]]. }
      rewrite DM. split.
      * intros [[H|H]|[x [n [I H]]]]; [right; exists y, m; split; [left; reflexivity|]; split; [exact G|exact H]|left; exact H|right; exists x, n; split; [right; exact I|exact H]].
      * intros [H|[x [n [[I|I] [H1 H2]]]]]; [left; right; exact H|subst y; rewrite G in H1; injection H1 as H1; subst m; left; left; exact H2|right; exists x, n; split; [exact I|split; assumption]].
    + split.
      * intros [H|[x [n [I H]]]]; [left; exact H|right; exists x, n; split; [right; exact I|exact H]].
      * intros [H|[x [n [[I|I] [H1 H2]]]]]; [left; exact H|subst y; rewrite G in H1; discriminate H1|right; exists x, n; split; [exact I|split; assumption]].
Qed.

(* Topologies of providers: a link is in the topology of a provider if and only if one of its nodes has that provider, in
   order; all nodes stay and those with other providers are unmanaged. *)
Theorem provider_topology_exact : forall t links t1 links1 p t2 links2, (forall l, In l links -> pl_prov l = []) ->
  mark_providers t links = (t1, links1) -> select_topology t1 links1 p = (t2, links2) ->
  (exists keep, map pl_nodes links2 = map pl_nodes (filter keep links) /\
     forall l, In l links -> (keep l = true <-> exists x n, In x (pl_nodes l) /\ dget x (pt_nodes t) = Some n /\ provides (pt_prov t) n p)) /\
  dkeys (pt_nodes t2) = dkeys (pt_nodes t) /\
  forall k x n, nth_error (pt_nodes t) k = Some (x, n) -> exists n', nth_error (pt_nodes t2) k = Some (x, n') /\
    (forall q, pn_prov n' = Some q <-> provides (pt_prov t) n q) /\
    (pn_unm n' = true <-> pn_unm n = true \/ ~ provides (pt_prov t) n p).
Proof.
  intros t links t1 links1 p t2 links2 E M S1. unfold mark_providers in M. injection M as M1 M2. subst t1 links1. unfold select_topology in S1. cbn [pt_nodes pt_prov pt_def] in S1. injection S1 as S1 S2. subst t2 links2. cbn [pt_nodes].
  set (nodes := pin_all (pt_prov t) (pt_nodes t)) in *.
  assert (DG : forall x, dget x nodes = match dget x (pt_nodes t) with Some n => Some (pin (pt_prov t) n) | None => None end).
  { intros x. unfold nodes, pin_all. induction (pt_nodes t) as [|[y m] r IH]; [reflexivity|]. cbn [map dget fst snd]. destruct (String.eqb x y); [reflexivity|exact IH]. }
  assert (GP : forall n, get_provider (pt_prov t) (pin (pt_prov t) n) = get_provider (pt_prov t) n).
  { intros n. unfold pin, get_provider. destruct (pn_prov n) as [q|] eqn:Q; [rewrite Q; reflexivity|reflexivity]. }
  split; [|split].
  - exists (fun l => dmem p (pl_prov (mark_link nodes (pt_prov t) l))). split.
    + clear. induction links as [|l links IH]; [reflexivity|]. cbn [map filter]. destruct (dmem p (pl_prov (mark_link nodes (pt_prov t) l))); [cbn [map]; rewrite IH; reflexivity|exact IH].
    + intros l I. unfold mark_link. cbn [pl_prov]. rewrite (E l I), mark_spec. split.
      * intros [H|[x [n [IX [G H]]]]]; [discriminate H|]. rewrite DG in G. destruct (dget x (pt_nodes t)) as [m|] eqn:G2; [|discriminate G]. injection G as G. subst n.
        exists x, m. split; [exact IX|]. split; [reflexivity || exact G2|]. apply provides_iff. rewrite <- GP. exact H.
      * intros [x [n [IX [G H]]]]. right. exists x, (pin (pt_prov t) n). split; [exact IX|]. split; [rewrite DG, G; reflexivity|]. rewrite GP. apply provides_iff. exact H.
  - unfold dkeys, nodes, pin_all. rewrite !map_map. reflexivity.
  - intros k x n N. unfold nodes, pin_all. rewrite map_map.
    exists (if match pn_prov (pin (pt_prov t) n) with Some q => String.eqb q p | None => false end then pin (pt_prov t) n else mk_pn (pn_prov (pin (pt_prov t) n)) true).
    split; [rewrite (map_nth_error _ k (pt_nodes t) N); reflexivity|].
    assert (PP : pn_prov (pin (pt_prov t) n) = Some (get_provider (pt_prov t) n)).
    { unfold pin, get_provider. destruct (pn_prov n) as [q|] eqn:Q; [exact Q|reflexivity]. }
    assert (PU : pn_unm (pin (pt_prov t) n) = pn_unm n) by (unfold pin; destruct (pn_prov n); reflexivity).
    rewrite PP. split.
    + intros q. rewrite provides_iff. destruct (String.eqb (get_provider (pt_prov t) n) p); [rewrite PP|cbn [pn_prov]]; (split; [intros K; injection K as K; exact K|intros K; rewrite K; reflexivity]).
    + rewrite provides_iff. destruct (String.eqb_spec (get_provider (pt_prov t) n) p) as [Q|Q].
      * rewrite PU. split; [intros K; left; exact K|intros [K|K]; [exact K|contradiction]].
      * cbn [pn_unm]. split; [intros _; right; exact Q|reflexivity].
Qed.

(* ------------------------------------------------------------------ *)
(* Management addresses                                                 *)

(* an address in a prefix *)
Definition inside (bits : Z) (p : Z * Z) (a : Z) : Prop :=
  let size := (2 ^ (bits - snd p))%Z in let first := (fst p - fst p mod size)%Z in (first <= a < first + size)%Z.

Definition legal (bits : Z) (p : Z * Z) : Prop := (0 <= snd p <= bits)%Z /\ (0 <= fst p < 2 ^ bits)%Z.

Lemma inside_iff : forall bits p a, (0 <= snd p <= bits)%Z -> (inside bits p a <-> network bits a (snd p) = network bits (fst p) (snd p)).
Proof.
  intros bits p a H. unfold inside, network. set (s := (2 ^ (bits - snd p))%Z). assert (S0 : (0 < s)%Z) by (apply Z.pow_pos_nonneg; lia). clearbody s. cbv zeta.
  pose proof (Z.div_mod (fst p) s ltac:(lia)) as DP. pose proof (Z.div_mod a s ltac:(lia)) as DA. pose proof (Z.mod_pos_bound a s S0) as MA. split.
  - intros I. symmetry. apply (Z.div_unique a s (fst p / s) (a - s * (fst p / s)))%Z; lia.
  - intros E. rewrite E in DA. lia.
Qed.

Lemma network_split : forall bits a len k, (0 <= k <= len)%Z -> (len <= bits)%Z -> (network bits a k = network bits a len / 2 ^ (len - k))%Z.
Proof.
  intros bits a len k K L. unfold network. rewrite Z.div_div; [|apply Z.pow_nonzero; lia|apply Z.pow_pos_nonneg; lia]. rewrite <- Z.pow_add_r by lia. f_equal. f_equal. lia.
Qed.

Lemma subnet_iff : forall bits a p, legal bits a -> legal bits p -> (in_subnet bits a p = true <-> forall x, inside bits a x -> inside bits p x).
Proof.
  intros bits a p [LA AA] [LP AP]. unfold in_subnet. rewrite andb_true_iff, Z.leb_le, Z.eqb_eq. split.
  - intros [L E] x I. apply (inside_iff bits a x LA) in I. apply (inside_iff bits p x LP). rewrite <- E. rewrite (network_split bits x (snd a) (snd p)), (network_split bits (fst a) (snd a) (snd p)) by lia. rewrite I. reflexivity.
  - intros H. set (sa := (2 ^ (bits - snd a))%Z). set (sp := (2 ^ (bits - snd p))%Z).
    assert (SA : (0 < sa)%Z) by (apply Z.pow_pos_nonneg; lia). assert (SP : (0 < sp)%Z) by (apply Z.pow_pos_nonneg; lia).
    assert (I0 : inside bits a (fst a)) by (apply inside_iff; [exact LA|reflexivity]).
    split; [|apply (inside_iff bits p (fst a) LP); exact (H _ I0)].
    destruct (Z.le_gt_cases (snd p) (snd a)) as [K|K]; [exact K|]. exfalso.
    assert (B : (sp < sa)%Z) by (apply Z.pow_lt_mono_r; lia).
    pose proof (H (fst a - fst a mod sa)%Z) as H1. pose proof (H (fst a - fst a mod sa + sa - 1)%Z) as H2. unfold inside in H1, H2. cbv zeta in H1, H2. fold sa sp in H1, H2. lia.
Qed.

Definition bits_of (af : string) : Z := if String.eqb af "ipv4" then 32%Z else 128%Z.
Definition family (af : string) : Prop := af = "ipv4" \/ af = "ipv6".

(* Errors: a required address is missing, there is no prefix for an address, or the network of an address is not within the prefix. *)
Theorem mgmt_errors_exact : forall addr pool required v4only,
  (forall af a, dget af addr = Some a -> family af -> legal (bits_of af) a) ->
  (forall p af x, pool = Some p -> dget af p = Some x -> family af -> legal (bits_of af) x) ->
  forall e, In e (validate_mgmt addr pool required v4only) <->
    (e = MNone /\ required = true /\ dget "ipv4" addr = None /\ (v4only = true \/ dget "ipv6" addr = None)) \/
    exists p af a, pool = Some p /\ family af /\ dget af addr = Some a /\
      ((e = MPool af /\ dget af p = None) \/
       (e = MSubnet af /\ exists x, dget af p = Some x /\ exists i, inside (bits_of af) a i /\ ~ inside (bits_of af) x i)).
Proof.
  intros addr pool required v4only LA LP e. unfold validate_mgmt. rewrite in_app_iff.
  assert (A : In e (if negb (existsb (fun af => memS af (if v4only then ["ipv4"] else ["ipv4"; "ipv6"])) (dkeys addr)) && required then [MNone] else []) <->
              e = MNone /\ required = true /\ dget "ipv4" addr = None /\ (v4only = true \/ dget "ipv6" addr = None)).
  { set (valid := if v4only then ["ipv4"] else ["ipv4"; "ipv6"]).
    assert (X : existsb (fun af => memS af valid) (dkeys addr) = false <-> dget "ipv4" addr = None /\ (v4only = true \/ dget "ipv6" addr = None)).
    { rewrite <- not_true_iff_false, existsb_exists. split.
      - intros N. assert (G : forall af, In af valid -> dget af addr = None).
        { intros af V. destruct (dget af addr) as [a|] eqn:D; [|reflexivity]. exfalso. apply N. exists af. split; [eapply dget_Some_key; exact D|apply memS_true; exact V]. }
        unfold valid in G. destruct v4only.
        + split; [apply G; left; reflexivity|left; reflexivity].
        + split; [apply G; left; reflexivity|right; apply G; right; left; reflexivity].
      - intros [N4 N6] [af [K V]]. apply memS_true in V. assert (NG : dget af addr = None).
        { unfold valid in V. destruct v4only; cbn [In] in V; [destruct V as [V|[]]; subst af; exact N4|]. destruct V as [V|[V|[]]]; subst af; [exact N4|]. destruct N6 as [N6|N6]; [discriminate N6|exact N6]. }
        apply dget_None in NG. exact (NG K). }
    destruct (existsb (fun af => memS af valid) (dkeys addr)); cbn [negb andb].
    - split; [intros []|]. intros [_ [_ K]]. apply X in K. discriminate K.
    - destruct required; [|split; [intros []|intros [_ [K _]]; discriminate K]]. split.
      + intros [K|[]]. split; [symmetry; exact K|]. split; [reflexivity|apply X; reflexivity].
      + intros [K _]. left. symmetry. exact K. }
  rewrite A. apply or_iff_compat_l. destruct pool as [p|].
  2:{ split; [intros []|]. intros [p [af [a [K _]]]]. discriminate K. }
  assert (B : forall af, family af -> (In e (mgmt_af addr p af (bits_of af)) <-> exists a, dget af addr = Some a /\
      ((e = MPool af /\ dget af p = None) \/
       (e = MSubnet af /\ exists x, dget af p = Some x /\ exists i, inside (bits_of af) a i /\ ~ inside (bits_of af) x i)))).
  { intros af F. unfold mgmt_af. destruct (dget af addr) as [a|] eqn:DA.
    2:{ split; [intros []|]. intros [a [K _]]. discriminate K. }
    destruct (dget af p) as [x|] eqn:DP.
    2:{ split.
        - intros [K|[]]. exists a. split; [reflexivity|]. left. split; [symmetry; exact K|reflexivity].
        - intros [a' [_ [[K _]|[_ [x [K _]]]]]]; [left; symmetry; exact K|discriminate K]. }
    pose proof (LA af a DA F) as L1. pose proof (LP p af x eq_refl DP F) as L2. pose proof (subnet_iff (bits_of af) a x L1 L2) as SI. destruct (in_subnet (bits_of af) a x) eqn:S1.
    - split; [intros []|]. intros [a' [K1 [[_ K]|[_ [x' [K2 [i [I1 I2]]]]]]]]; [discriminate K|]. injection K1 as K1. injection K2 as K2. subst a' x'. apply I2. exact (proj1 SI eq_refl i I1).
    - split.
      + intros [K|[]]. exists a. split; [reflexivity|]. right. split; [symmetry; exact K|]. exists x. split; [reflexivity|].
        destruct L1 as [La Aa]. destruct L2 as [Lx Ax]. unfold in_subnet in S1. apply andb_false_iff in S1.
        assert (I0 : inside (bits_of af) a (fst a)) by (apply inside_iff; [exact La|reflexivity]).
        destruct (Z.eq_dec (network (bits_of af) (fst a) (snd x)) (network (bits_of af) (fst x) (snd x))) as [Q|Q].
        * destruct S1 as [S1|S1]; [|apply Z.eqb_neq in S1; contradiction]. apply Z.leb_gt in S1.
          set (sa := (2 ^ (bits_of af - snd a))%Z). set (sx := (2 ^ (bits_of af - snd x))%Z).
          assert (B1 : (sx < sa)%Z) by (apply Z.pow_lt_mono_r; lia). assert (S0 : (0 < sx)%Z) by (apply Z.pow_pos_nonneg; lia).
          unfold inside. cbv zeta. fold sa sx. set (f := (fst a - fst a mod sa)%Z). set (g := (fst x - fst x mod sx)%Z).
          destruct (Z_le_gt_dec g f) as [C|C]; [destruct (Z_le_gt_dec (g + sx) f) as [C2|C2]|].
          -- exists f. lia.
          -- exists (f + sa - 1)%Z. lia.
          -- exists f. lia.
        * exists (fst a). split; [exact I0|]. intros K2. apply Q. apply (inside_iff _ x (fst a) Lx). exact K2.
      + intros [a' [_ [[_ K]|[K _]]]]; [discriminate K|left; symmetry; exact K]. }
  rewrite in_app_iff. change 32%Z with (bits_of "ipv4"). change 128%Z with (bits_of "ipv6"). rewrite (B "ipv4" (or_introl eq_refl)), (B "ipv6" (or_intror eq_refl)). split.
  - intros [[a [K1 K2]]|[a [K1 K2]]]; [exists p, "ipv4", a|exists p, "ipv6", a]; (split; [reflexivity|]); (split; [unfold family; first [left; reflexivity|right; reflexivity]|]); split; assumption.
  - intros [p' [af [a [K1 [F [K2 K3]]]]]]. injection K1 as K1. subst p'. destruct F as [F|F]; subst af; [left|right]; exists a; split; assumption.
Qed.

(* ------------------------------------------------------------------ *)
(* Examples                                                             *)

Example x_select :
  let n p := mk_pn p false in
  select_primary ["libvirt"; "clab"] (mk_pt "clab" "clab" [("a", n None); ("b", n (Some "libvirt")); ("c", n (Some "external"))]) =
  (mk_pt "libvirt" "libvirt" [("a", n (Some "clab")); ("b", n (Some "libvirt")); ("c", n (Some "external"))], true) /\
  select_primary ["libvirt"; "clab"] (mk_pt "libvirt" "libvirt" [("a", n (Some "clab"))]) = (mk_pt "clab" "libvirt" [("a", n (Some "clab"))], true).
Proof. split; reflexivity. Qed.

Example x_topology :
  let t := mk_pt "libvirt" "libvirt" [("a", mk_pn None false); ("b", mk_pn (Some "clab") false)] in
  let '(t1, l1) := mark_providers t [mk_pl ["a"; "b"] []; mk_pl ["a"] []; mk_pl ["b"; "b"] []; mk_pl ["x"] []] in
  map pl_nodes (snd (select_topology t1 l1 "clab")) = [["a"; "b"]; ["b"; "b"]] /\
  pt_nodes (fst (select_topology t1 l1 "clab")) = [("a", mk_pn (Some "libvirt") true); ("b", mk_pn (Some "clab") false)].
Proof. split; reflexivity. Qed.

Example x_mgmt :
  validate_mgmt [("ipv4", (3232235777, 24)%Z); ("ipv6", (5, 64)%Z)] (Some [("ipv4", (3232235776, 24)%Z)]) true true = [MPool "ipv6"] /\
  validate_mgmt [("ipv6", (5, 64)%Z)] (Some [("ipv6", (0, 80)%Z)]) true true = [MNone; MSubnet "ipv6"] /\
  legal 32 (3232235777, 24)%Z.
Proof. split; [reflexivity|]. split; [reflexivity|]. unfold legal. cbn [fst snd]. lia. Qed.

Print Assumptions primary_exact.
Print Assumptions primary_nodes_kept.
Print Assumptions primary_unused_refuted.
Print Assumptions provider_topology_exact.
Print Assumptions mgmt_errors_exact.
