(* Properties C40-C42 and C67-C69: BGP sessions, AS lists, route reflector clusters, activation of
   address families and EBGP link roles. *)
From Coq Require Import String Ascii ZArith Lia Bool List.
From Verif Require Import Base Text_Model Types_Model Bgp_Model.
Import ListNotations.
Open Scope Z_scope.

(* ------------------------------------------------------------------ *)
(* Helpers                                                              *)

Lemma opt_z_eqb_eq : forall a b, opt_z_eqb a b = true <-> a = b.
Proof.
  intros [x|] [y|]; cbn [opt_z_eqb]; split; intros H; try discriminate; auto.
  - apply Z.eqb_eq in H. subst. auto.
  - injection H as ->. apply Z.eqb_refl.
Qed.

Lemma opt_z_eqb_neq : forall a b, opt_z_eqb a b = false <-> a <> b.
Proof.
  intros a b. destruct (opt_z_eqb a b) eqn:E.
  - apply opt_z_eqb_eq in E. split; [discriminate|congruence].
  - split; auto. intros _ C. apply opt_z_eqb_eq in C. congruence.
Qed.

Lemma stype_eqb_eq : forall a b, stype_eqb a b = true <-> a = b.
Proof. intros [] []; cbn; split; intros; congruence. Qed.

Lemma mem_stype_In : forall t l, mem_stype t l = true <-> In t l.
Proof.
  intros t l. unfold mem_stype. rewrite existsb_exists. split.
  - intros [x [H E]]. apply stype_eqb_eq in E. subst. auto.
  - intros H. exists t. split; auto. apply stype_eqb_eq. auto.
Qed.

(* an absent AS number: missing or zero *)
Definition absent (o : option Z) : Prop := o = None \/ o = Some 0.

Lemma or_as_spec : forall a b, (absent a /\ or_as a b = b) \/ (exists z, z <> 0 /\ a = Some z /\ or_as a b = Some z).
Proof.
  intros [[|p|p]|] b; unfold absent; cbn [or_as]; auto; right; eexists; split; eauto; discriminate.
Qed.

(* ------------------------------------------------------------------ *)
(* C40: IBGP sessions                                                   *)

(* the AS of a node has a route reflector *)
Definition as_has_rr (lab : blab) (asn : option Z) : Prop :=
  exists k n, In (k, n) lab /\ bn_bgp n = true /\ bn_as n = asn /\ bn_rr n = Some true.

(* who should peer with whom *)
Definition ibgp_pair (lab : blab) (a : string) (na : bnode) (b : string) (nb : bnode) : Prop :=
  a <> b /\ bn_bgp nb = true /\ bn_as nb = bn_as na
  /\ (~ as_has_rr lab (bn_as na) \/ bn_rr na = Some true \/ bn_rr nb = Some true).

(* the remote node has an address usable with the session types enabled on the local node *)
Definition ibgp_reachable (s : bsess) (nb : bnode) : Prop :=
  (In Ibgp (s_v4 s) /\ a_v4 (get_remote_ibgp_endpoint nb) <> None)
  \/ (In Ibgp (s_v6 s) /\ a_v6 (get_remote_ibgp_endpoint nb) <> None).

(* node [a] has an IBGP session with node [b] in the global routing table *)
Definition ibgp_session (lab : blab) (a : string) (na : bnode) (b : string) : Prop :=
  exists x, In (None, x) (fst (build_bgp_sessions lab a na)) /\ nb_type x = Ibgp /\ nb_name x = b.

Lemma is_rr_spec : forall n, is_rr n = true <-> bn_rr n = Some true.
Proof. intros n. unfold is_rr. destruct (bn_rr n) as [[|]|]; split; congruence. Qed.

Lemma find_bgp_rr_In : forall asn lab k n,
  In (k, n) (find_bgp_rr asn lab) <-> In (k, n) lab /\ bn_bgp n = true /\ bn_as n = asn /\ bn_rr n = Some true.
Proof.
  intros asn lab k n. unfold find_bgp_rr. rewrite filter_In. cbn [snd]. rewrite !andb_true_iff, opt_z_eqb_eq, is_rr_spec. tauto.
Qed.

Lemma find_bgp_rr_nil : forall asn lab, find_bgp_rr asn lab = [] <-> ~ as_has_rr lab asn.
Proof.
  intros asn lab. split.
  - intros E [k [n H]]. apply find_bgp_rr_In in H. rewrite E in H. destruct H.
  - intros N. destruct (find_bgp_rr asn lab) as [|[k n] r] eqn:E; auto. exfalso. apply N. exists k, n.
    apply find_bgp_rr_In. rewrite E. left. auto.
Qed.

Lemma bgp_neighbor_some : forall name n intf t s rr i las b1 b2,
  (exists x, bgp_neighbor name n intf t s rr i las b1 b2 = Some x)
  <-> (In t (s_v4 s) /\ a_v4 intf <> None) \/ (In t (s_v6 s) /\ a_v6 intf <> None).
Proof.
  intros name n intf t s rr i las b1 b2. unfold bgp_neighbor. rewrite <- !mem_stype_In.
  destruct (mem_stype t (s_v4 s)); destruct (mem_stype t (s_v6 s)); destruct (a_v4 intf); destruct (a_v6 intf);
    split; try (intros [x H]; discriminate); try (intros [[C D]|[C D]]; congruence); eauto;
    try (intros _; left; split; congruence); try (intros _; right; split; congruence).
Qed.

Lemma bgp_neighbor_fields : forall name n intf t s rr i las b1 b2 x,
  bgp_neighbor name n intf t s rr i las b1 b2 = Some x ->
  nb_name x = name /\ nb_as x = bn_as n /\ nb_type x = t
  /\ nb_v4 x = (if mem_stype t (s_v4 s) then a_v4 intf else None)
  /\ nb_v6 x = (if mem_stype t (s_v6 s) then a_v6 intf else None)
  /\ nb_rr x = rr /\ nb_ifindex x = i /\ nb_local_as x = las /\ nb_local_if x = b1 /\ nb_rfc8950 x = b2.
Proof.
  intros name n intf t s rr i las b1 b2 x H. unfold bgp_neighbor in H.
  destruct (if mem_stype t (s_v4 s) then a_v4 intf else None) as [v4|];
    destruct (if mem_stype t (s_v6 s) then a_v6 intf else None) as [v6|]; try discriminate; injection H as <-; repeat split.
Qed.

Lemma ibgp_neighbor_In : forall s k n x, In x (ibgp_neighbor s (k, n)) ->
  nb_name x = k /\ nb_type x = Ibgp /\ nb_as x = bn_as n /\ nb_rr x = bn_rr n /\ ibgp_reachable s n
  /\ nb_v4 x = (if mem_stype Ibgp (s_v4 s) then a_v4 (get_remote_ibgp_endpoint n) else None)
  /\ nb_v6 x = (if mem_stype Ibgp (s_v6 s) then a_v6 (get_remote_ibgp_endpoint n) else None).
Proof.
  intros s k n x H. unfold ibgp_neighbor in H. cbn [fst snd] in H.
  destruct (bgp_neighbor _ _ _ _ _ _ _ _ _ _) as [y|] eqn:E; [|destruct H]. destruct H as [<-|[]].
  pose proof (bgp_neighbor_fields _ _ _ _ _ _ _ _ _ _ _ E) as F.
  assert (R : ibgp_reachable s n).
  { unfold ibgp_reachable. apply (proj1 (bgp_neighbor_some k n (get_remote_ibgp_endpoint n) Ibgp s (bn_rr n) None None false false)). eauto. }
  destruct F as [F1 [F2 [F3 [F4 [F5 [F6 _]]]]]]. repeat split; auto.
Qed.

Lemma ibgp_neighbor_ex : forall s k n, ibgp_reachable s n -> exists x, In x (ibgp_neighbor s (k, n)).
Proof.
  intros s k n R. apply (bgp_neighbor_some k n (get_remote_ibgp_endpoint n) Ibgp s (bn_rr n) None None false false) in R.
  destruct R as [x R]. unfold ibgp_neighbor. cbn [fst snd]. rewrite R. exists x. left. auto.
Qed.

(* the nodes used by build_ibgp_sessions *)
Lemma build_ibgp_In : forall name node s lab x, In x (build_ibgp_sessions name node s lab) <->
  exists k n, In (k, n) lab /\ ibgp_pair lab name node k n /\ In x (ibgp_neighbor s (k, n)).
Proof.
  intros name node s lab x. unfold build_ibgp_sessions.
  destruct (find_bgp_rr (bn_as node) lab) as [|p r] eqn:E.
  - apply find_bgp_rr_nil in E. rewrite in_flat_map. split.
    + intros [[k n] [H1 H2]]. apply filter_In in H1. cbn [fst snd] in H1. destruct H1 as [H1 H3].
      rewrite !andb_true_iff, opt_z_eqb_eq, negb_true_iff in H3. destruct H3 as [[H3 H4] H5].
      apply String.eqb_neq in H5. exists k, n. split; auto. split; auto. split; auto.
    + intros [k [n [H1 [[H2 [H3 [H4 _]]] H5]]]]. exists (k, n). split; auto. apply filter_In. split; auto. cbn [fst snd].
      rewrite !andb_true_iff, opt_z_eqb_eq, negb_true_iff. split; auto. apply String.eqb_neq. auto.
  - assert (HR : as_has_rr lab (bn_as node)).
    { destruct p as [k n]. exists k, n. apply find_bgp_rr_In. rewrite E. left. auto. }
    destruct (is_rr node) eqn:RR.
    + apply is_rr_spec in RR. rewrite in_flat_map. split.
      * intros [[k n] [H1 H2]]. apply filter_In in H1. cbn [fst snd] in H1. destruct H1 as [H1 H3].
        rewrite !andb_true_iff, opt_z_eqb_eq, negb_true_iff in H3. destruct H3 as [[H3 H4] H5].
        apply String.eqb_neq in H5. exists k, n. split; auto. split; auto. split; auto.
      * intros [k [n [H1 [[H2 [H3 [H4 _]]] H5]]]]. exists (k, n). split; auto. apply filter_In. split; auto. cbn [fst snd].
        rewrite !andb_true_iff, opt_z_eqb_eq, negb_true_iff. split; auto. apply String.eqb_neq. auto.
    + rewrite <- E. rewrite in_flat_map. split.
      * intros [[k n] [H1 H2]]. apply filter_In in H1. cbn [fst] in H1. destruct H1 as [H1 H3].
        apply find_bgp_rr_In in H1. rewrite negb_true_iff in H3. apply String.eqb_neq in H3. exists k, n.
        destruct H1 as [H1 [H4 [H5 H6]]]. split; auto. split; auto. split; auto.
      * intros [k [n [H1 [[H2 [H3 [H4 H5]]] H6]]]]. exists (k, n). split; auto. apply filter_In. split.
        -- apply find_bgp_rr_In. split; auto. split; auto. split; auto.
           destruct H5 as [H5|[H5|H5]]; auto; [contradiction|]. apply is_rr_spec in H5. congruence.
        -- cbn [fst]. rewrite negb_true_iff. apply String.eqb_neq. auto.
Qed.

(* EBGP entries are never of type ibgp *)
Lemma ebgp_one_type : forall lab node s l v6 ng v x, In (v, x) (snd (fst (ebgp_one lab node s l v6 ng))) -> nb_type x <> Ibgp.
Proof.
  intros lab node s l v6 ng v x H. unfold ebgp_one in H.
  repeat match type of H with
  | context [if ?b then _ else _] => destruct b; cbn [fst snd] in H; try (destruct H; fail)
  | context [match dget ?a ?b with _ => _ end] => destruct (dget a b); cbn [fst snd] in H; try (destruct H; fail)
  | context [match or_as ?a None with _ => _ end] => destruct (or_as a None); cbn [fst snd] in H; try (destruct H; fail)
  | context [match bgp_neighbor ?a ?b ?c ?d ?e ?f ?g ?h ?i ?j with _ => _ end] =>
      let E := fresh "E" in destruct (bgp_neighbor a b c d e f g h i j) eqn:E; cbn [fst snd] in H; try (destruct H; fail);
      apply bgp_neighbor_fields in E
  | context [match bi_vrf ?a with _ => _ end] => destruct (bi_vrf a); cbn [fst snd] in H; try (destruct H; fail)
  end;
  destruct H as [H|[]]; injection H as <- <-; cbn [nb_type]; destruct E as [_ [_ [E _]]]; rewrite E; discriminate.
Qed.

Lemma ebgp_ngbs_type : forall lab node s l ngs v6 v x, In (v, x) (fst (ebgp_ngbs lab node s l v6 ngs)) -> nb_type x <> Ibgp.
Proof.
  intros lab node s l. induction ngs as [|ng ngs IH]; intros v6 v x H; cbn [ebgp_ngbs] in H; [destruct H|].
  pose proof (ebgp_one_type lab node s l v6 ng) as T.
  destruct (ebgp_one lab node s l v6 ng) as [[v6' y] e]. specialize (IH v6'). destruct (ebgp_ngbs lab node s l v6' ngs) as [z e'].
  cbn [fst snd] in *. apply in_app_or in H. destruct H as [H|H]; eauto.
Qed.

Lemma build_ebgp_type : forall lab node s ls v x, In (v, x) (fst (build_ebgp_sessions lab node s ls)) -> nb_type x <> Ibgp.
Proof.
  intros lab node s. induction ls as [|l ls IH]; intros v x H; cbn [build_ebgp_sessions] in H; [destruct H|].
  assert (T : forall v x, In (v, x) (fst (ebgp_intf lab node s l)) -> nb_type x <> Ibgp).
  { intros v0 x0 H0. unfold ebgp_intf in H0.
    repeat match type of H0 with context [if ?b then _ else _] => destruct b; try (destruct H0; fail) end.
    eapply ebgp_ngbs_type; eauto. }
  destruct (ebgp_intf lab node s l) as [y e]. destruct (build_ebgp_sessions lab node s ls) as [z e'].
  cbn [fst] in *. apply in_app_or in H. destruct H as [H|H]; eauto.
Qed.

Lemma build_bgp_In : forall lab a na v x, In (v, x) (fst (build_bgp_sessions lab a na)) <->
  (v = None /\ In x (build_ibgp_sessions a na (node_sessions na) lab))
  \/ In (v, x) (fst (build_ebgp_sessions lab na (node_sessions na) (bn_intfs na))).
Proof.
  intros lab a na v x. unfold build_bgp_sessions.
  destruct (build_ebgp_sessions lab na (node_sessions na) (bn_intfs na)) as [z e]. cbn [fst]. rewrite in_app_iff, in_map_iff. split.
  - intros [[y [E H]]|H]; [injection E as <- <-; auto|auto].
  - intros [[-> H]|H]; [left; exists x; auto|auto].
Qed.

(* A node has an IBGP session with another node exactly when both belong to the same AS, the AS has no
   route reflector or one of them is a route reflector, and the other node has a usable endpoint. *)
Theorem ibgp_sessions_exact : forall lab a na b nb, NoDup (dkeys lab) -> dget b lab = Some nb ->
  (ibgp_session lab a na b <-> ibgp_pair lab a na b nb /\ ibgp_reachable (node_sessions na) nb).
Proof.
  intros lab a na b nb ND Hb. unfold ibgp_session. split.
  - intros [x [H [T N]]]. apply build_bgp_In in H. destruct H as [[_ H]|H].
    + apply build_ibgp_In in H. destruct H as [k [n [H1 [H2 H3]]]]. apply ibgp_neighbor_In in H3.
      destruct H3 as [E [_ [_ [_ [R _]]]]]. assert (k = b) by congruence. subst k.
      apply (dget_NoDup _ _ _ ND) in H1. assert (n = nb) by congruence. subst. auto.
    + apply build_ebgp_type in H. contradiction.
  - intros [P R]. destruct (ibgp_neighbor_ex _ b nb R) as [x Hx]. exists x. split.
    + apply build_bgp_In. left. split; auto. apply build_ibgp_In. exists b, nb. split; [apply dget_In; auto|auto].
    + apply ibgp_neighbor_In in Hx. tauto.
Qed.

(* IBGP neighbor data: AS, addresses and the route reflector flag of the neighbor *)
Theorem ibgp_neighbor_data : forall lab a na x, NoDup (dkeys lab) ->
  In (None, x) (fst (build_bgp_sessions lab a na)) -> nb_type x = Ibgp ->
  exists nb, dget (nb_name x) lab = Some nb /\ nb_as x = bn_as na /\ nb_as x = bn_as nb /\ nb_rr x = bn_rr nb
    /\ (nb_v4 x = None \/ nb_v4 x = a_v4 (get_remote_ibgp_endpoint nb))
    /\ (nb_v6 x = None \/ nb_v6 x = a_v6 (get_remote_ibgp_endpoint nb))
    /\ ~ (nb_v4 x = None /\ nb_v6 x = None).
Proof.
  intros lab a na x ND H T. apply build_bgp_In in H. destruct H as [[_ H]|H]; [|apply build_ebgp_type in H; contradiction].
  apply build_ibgp_In in H. destruct H as [k [n [H1 [H2 H3]]]]. apply ibgp_neighbor_In in H3.
  destruct H3 as [E1 [E2 [E3 [E4 [R [E5 E6]]]]]]. subst k. exists n. destruct H2 as [_ [_ [P _]]].
  split; [apply (dget_NoDup _ _ _ ND); auto|]. split; [congruence|]. split; [auto|]. split; [auto|].
  split; [rewrite E5; destruct (mem_stype Ibgp (s_v4 (node_sessions na))); [right|left]; reflexivity|].
  split; [rewrite E6; destruct (mem_stype Ibgp (s_v6 (node_sessions na))); [right|left]; reflexivity|].
  intros [C1 C2]. destruct R as [[R1 R2]|[R1 R2]]; apply mem_stype_In in R1; rewrite R1 in *; congruence.
Qed.

(* no node peers with itself and no neighbor is listed twice *)
Theorem ibgp_no_self : forall lab a na, NoDup (dkeys lab) -> dget a lab = Some na -> ~ ibgp_session lab a na a.
Proof. intros lab a na ND H C. apply (ibgp_sessions_exact _ _ _ _ na) in C; auto. destruct C as [[C _] _]. auto. Qed.

Lemma ibgp_names_sub : forall s (l : blab), NoDup (dkeys l) -> NoDup (map nb_name (flat_map (ibgp_neighbor s) l))
  /\ incl (map nb_name (flat_map (ibgp_neighbor s) l)) (dkeys l).
Proof.
  intros s. induction l as [|[k n] l IH]; intros ND; cbn [flat_map map].
  - split; [constructor|intros x []].
  - cbn [dkeys map fst] in ND. inversion ND as [|? ? Nk ND']; subst. destruct (IH ND') as [I1 I2].
    assert (Hd : ibgp_neighbor s (k, n) = [] \/ exists x, ibgp_neighbor s (k, n) = [x] /\ nb_name x = k).
    { destruct (ibgp_neighbor s (k, n)) as [|x [|y r]] eqn:E; auto.
      - right. exists x. split; auto. assert (In x (ibgp_neighbor s (k, n))) by (rewrite E; left; auto).
        apply ibgp_neighbor_In in H. tauto.
      - exfalso. unfold ibgp_neighbor in E. destruct (bgp_neighbor _ _ _ _ _ _ _ _ _ _); discriminate. }
    destruct Hd as [->|[x [-> E]]]; cbn [app map].
    + split; auto. intros z Hz. right. apply I2. auto.
    + rewrite E. split.
      * constructor; auto.
      * intros z [<-|Hz]; [left; auto|right; apply I2; auto].
Qed.

Lemma NoDup_keys_filter : forall (f : string * bnode -> bool) (l : blab), NoDup (dkeys l) -> NoDup (dkeys (filter f l)).
Proof.
  intros f l ND. induction l as [|[k n] l IH]; cbn [filter]; auto. cbn [dkeys map fst] in ND.
  inversion ND as [|? ? Nk ND']; subst. destruct (f (k, n)); auto. cbn [dkeys map fst]. constructor; [|apply IH; auto].
  intros C. apply Nk. apply in_map_iff in C. destruct C as [[k' n'] [E C]]. cbn [fst] in E. subst k'.
  apply filter_In in C. apply in_map_iff. exists (k, n'). tauto.
Qed.

Theorem ibgp_listed_once : forall lab a na, NoDup (dkeys lab) ->
  NoDup (map nb_name (filter (fun x => stype_eqb (nb_type x) Ibgp) (global_neighbors (fst (build_bgp_sessions lab a na))))).
Proof.
  intros lab a na ND.
  assert (E : filter (fun x => stype_eqb (nb_type x) Ibgp) (global_neighbors (fst (build_bgp_sessions lab a na)))
     = build_ibgp_sessions a na (node_sessions na) lab).
  { unfold build_bgp_sessions. pose proof (build_ebgp_type lab na (node_sessions na) (bn_intfs na)) as T.
    destruct (build_ebgp_sessions lab na (node_sessions na) (bn_intfs na)) as [z e]. cbn [fst] in *.
    assert (App : forall p q, global_neighbors (p ++ q) = global_neighbors p ++ global_neighbors q)
      by (intros p q; apply flat_map_app).
    rewrite App, filter_app.
    assert (Z : filter (fun x => stype_eqb (nb_type x) Ibgp) (global_neighbors z) = []).
    { clear - T App. induction z as [|[v x] z IH]; [reflexivity|]. change ((v, x) :: z) with ([(v, x)] ++ z).
      rewrite App, filter_app, IH.
      - rewrite app_nil_r. destruct v; [reflexivity|]. cbn [global_neighbors flat_map fst snd app filter].
        destruct (stype_eqb (nb_type x) Ibgp) eqn:E; auto.
        apply stype_eqb_eq in E. exfalso. eapply T; [left; reflexivity|auto].
      - intros v' x' H. eapply T. right. eauto. }
    rewrite Z, app_nil_r.
    assert (All : forall x, In x (build_ibgp_sessions a na (node_sessions na) lab) -> nb_type x = Ibgp).
    { intros x Hx. apply build_ibgp_In in Hx. destruct Hx as [k [n [_ [_ Hx]]]]. apply ibgp_neighbor_In in Hx. tauto. }
    induction (build_ibgp_sessions a na (node_sessions na) lab) as [|x l IH]; auto. cbn [map global_neighbors flat_map fst snd app filter].
    rewrite (All x) by (left; auto). cbn [stype_eqb]. f_equal. apply IH. intros y Hy. apply All. right. auto. }
  rewrite E. unfold build_ibgp_sessions. destruct (find_bgp_rr (bn_as na) lab) as [|p r] eqn:F; [|destruct (is_rr na)].
  - apply ibgp_names_sub. apply NoDup_keys_filter. auto.
  - apply ibgp_names_sub. apply NoDup_keys_filter. auto.
  - rewrite <- F. apply ibgp_names_sub. apply NoDup_keys_filter. unfold find_bgp_rr. apply NoDup_keys_filter. auto.
Qed.

Lemma ibgp_pair_sym : forall lab a na b nb, bn_bgp na = true -> ibgp_pair lab a na b nb -> ibgp_pair lab b nb a na.
Proof.
  intros lab a na b nb Ba [H1 [H2 [H3 H4]]]. split; [auto|]. split; [auto|]. split; [auto|]. rewrite H3. tauto.
Qed.

(* IBGP sessions are symmetric between nodes with usable endpoints. *)
Theorem ibgp_symmetric : forall lab a na b nb, NoDup (dkeys lab) ->
  dget a lab = Some na -> dget b lab = Some nb -> bn_bgp na = true -> bn_bgp nb = true ->
  ibgp_reachable (node_sessions na) nb -> ibgp_reachable (node_sessions nb) na ->
  (ibgp_session lab a na b <-> ibgp_session lab b nb a).
Proof.
  intros lab a na b nb ND Ha Hb Ba Bb Ra Rb.
  rewrite (ibgp_sessions_exact lab a na b nb), (ibgp_sessions_exact lab b nb a na) by auto.
  split; intros [P _]; (split; [|auto]); apply ibgp_pair_sym; auto.
Qed.

(* Without route reflectors: full mesh; with route reflectors: exactly the pairs with a route reflector. *)
Theorem ibgp_full_mesh : forall lab a na b nb, NoDup (dkeys lab) ->
  dget a lab = Some na -> dget b lab = Some nb -> a <> b -> bn_bgp nb = true -> bn_as na = bn_as nb ->
  ibgp_reachable (node_sessions na) nb -> ~ as_has_rr lab (bn_as na) -> ibgp_session lab a na b.
Proof.
  intros lab a na b nb ND Ha Hb N Bb E R NR. apply (ibgp_sessions_exact lab a na b nb); auto. split; auto.
  split; auto.
Qed.

Theorem ibgp_route_reflectors : forall lab a na b nb, NoDup (dkeys lab) ->
  dget a lab = Some na -> dget b lab = Some nb -> a <> b -> bn_bgp nb = true -> bn_as na = bn_as nb ->
  ibgp_reachable (node_sessions na) nb -> as_has_rr lab (bn_as na) ->
  (ibgp_session lab a na b <-> bn_rr na = Some true \/ bn_rr nb = Some true).
Proof.
  intros lab a na b nb ND Ha Hb N Bb E R HR. rewrite (ibgp_sessions_exact lab a na b nb) by auto. split.
  - intros [[_ [_ [_ [C|C]]]] _]; [contradiction|auto].
  - intros C. split; auto. split; auto.
Qed.

Definition all_features : bfeatures := mk_bfeatures true true true true true.
Definition lab_node (asn : Z) (rr : option bool) (lb : option string) (ifs : list bintf) : bnode :=
  mk_bnode true (Some asn) None rr "10.0.0.1" None
    (match lb with Some a => Some (mk_afs (Some (AAddr a)) None) | None => None end) false ifs None [] all_features.

Definition rr_lab : blab :=
  [("rr", lab_node 65000 (Some true) (Some "10.0.0.1") []); ("c1", lab_node 65000 None (Some "10.0.0.2") []);
   ("c2", lab_node 65000 None (Some "10.0.0.3") []); ("x", lab_node 65001 None (Some "10.0.0.4") [])]%string.

Example rr_lab_case : map nb_name (build_ibgp_sessions "rr" (lab_node 65000 (Some true) (Some "10.0.0.1"%string) []) default_sessions rr_lab) = ["c1"; "c2"]%string
  /\ map nb_name (build_ibgp_sessions "c1" (lab_node 65000 None (Some "10.0.0.2"%string) []) default_sessions rr_lab) = ["rr"]%string
  /\ as_has_rr rr_lab (Some 65000).
Proof.
  split; [reflexivity|]. split; [reflexivity|]. eexists _, _. split; [left; reflexivity|]. repeat split.
Qed.

(* A node without a loopback interface has sessions the other end does not have. *)
Theorem ibgp_symmetric_refuted : exists lab a na b nb, NoDup (dkeys lab)
  /\ dget a lab = Some na /\ dget b lab = Some nb /\ bn_bgp na = true /\ bn_bgp nb = true
  /\ ibgp_session lab b nb a /\ ~ ibgp_session lab a na b.
Proof.
  pose (na := lab_node 65000 None (Some "10.0.0.1"%string) []). pose (nb := lab_node 65000 None None []).
  pose (lab := [("a", na); ("b", nb)]%string).
  assert (ND : NoDup (dkeys lab)).
  { cbn. constructor; [intros [C|[]]; discriminate|]. constructor; [intros []|constructor]. }
  exists lab, "a"%string, na, "b"%string, nb. split; [exact ND|]. split; [reflexivity|]. split; [reflexivity|].
  split; [reflexivity|]. split; [reflexivity|]. split.
  - eexists. split; [left; reflexivity|]. split; reflexivity.
  - intros [x [H _]]. destruct H.
Qed.

(* ------------------------------------------------------------------ *)
(* C41: EBGP sessions                                                   *)

(* the AS number a node uses on an interface: interface local_as, node local_as, node AS *)
Definition uses_as (n : bnode) (l : bintf) (a : Z) : Prop :=
  a <> 0 /\
  (bi_local_as l = Some a
   \/ (absent (bi_local_as l) /\ (bn_local_as n = Some a \/ (absent (bn_local_as n) /\ bn_as n = Some a)))).

Lemma uses_as_node : forall n l a, uses_as n l a <-> or_as (node_local_as n l) None = Some a.
Proof.
  intros n l a. unfold uses_as, node_local_as.
  destruct (or_as_spec (bi_local_as l) (or_as (bn_local_as n) (bn_as n))) as [[A E]|[z [Z [Ez E]]]]; rewrite E.
  - destruct (or_as_spec (bn_local_as n) (bn_as n)) as [[A' E']|[z [Z [Ez E']]]]; rewrite E'.
    + destruct (or_as_spec (bn_as n) None) as [[A'' E'']|[z [Z [Ez E'']]]]; rewrite E''.
      * split; [|discriminate]. intros [N [C|[_ [C|[_ C]]]]]; exfalso.
        -- destruct A; congruence.
        -- destruct A'; congruence.
        -- destruct A''; congruence.
      * split.
        -- intros [N [C|[_ [C|[_ C]]]]]; [destruct A; congruence|destruct A'; congruence|congruence].
        -- intros C. injection C as <-. split; auto.
    + destruct (or_as_spec (Some z) None) as [[[C|C] _]|[z' [_ [C E'']]]]; try congruence. rewrite E''.
      split.
      * intros [N [D|[_ [D|[D _]]]]]; [destruct A; congruence|congruence|destruct D; congruence].
      * intros D. assert (a = z) by congruence. subst a. split; auto.
  - destruct (or_as_spec (Some z) None) as [[[C|C] _]|[z' [_ [C E'']]]]; try congruence. rewrite E''.
    split.
    + intros [N [D|[D _]]]; [congruence|destruct D; congruence].
    + intros D. assert (a = z) by congruence. subst a. split; auto.
Qed.

(* the neighbor data attached to an interface describes the interface [l] of node [name] *)
Definition view_of (name : string) (l : bintf) (ng : bngb) : Prop :=
  ni_node ng = name /\ ni_bgp_off ng = bi_bgp_off l /\ ni_local_as ng = bi_local_as l /\ ni_af ng = bi_af l.

Lemma view_local_as : forall name n l ng, view_of name l ng -> bi_bgp_off l = false ->
  neighbor_local_as n ng = node_local_as n l.
Proof.
  intros name n l ng [_ [E1 [E2 _]]] O. unfold neighbor_local_as, node_local_as. rewrite E1, O, E2. auto.
Qed.

(* what is known about a session created by ebgp_one *)
Definition ebgp_facts (na : bnode) (l : bintf) (ng : bngb) (nb : bnode) (v : option string) (x : bneighbor) : Prop :=
  v = bi_vrf l /\ nb_name x = ni_node ng /\ nb_ifindex x = Some (bi_ifindex l)
  /\ (exists z, nb_as x = Some z /\ or_as (neighbor_local_as nb ng) None = Some z)
  /\ nb_type x = (if opt_z_eqb (nb_as x) (node_local_as na l) then LocalasIbgp else Ebgp)
  /\ nb_local_as x = or_as (bi_local_as l) (bn_local_as na)
  /\ nb_v4 x = (if mem_stype (nb_type x) (s_v4 (node_sessions na)) then a_v4 (ni_af ng) else None)
  /\ nb_v6 x = (if mem_stype (nb_type x) (s_v6 (node_sessions na)) then a_v6 (ni_af ng) else None)
  /\ (bn_as na <> bn_as nb \/ node_local_as na l <> nb_as x).

Lemma ebgp_one_sound : forall lab na l v6 ng v x,
  In (v, x) (snd (fst (ebgp_one lab na (node_sessions na) l v6 ng))) ->
  exists nb, dget (ni_node ng) lab = Some nb /\ has_af (ni_af ng) = true /\ ebgp_facts na l ng nb v x.
Proof.
  intros lab na l v6 ng v x H. unfold ebgp_one in H.
  destruct (has_af (ni_af ng)) eqn:A; cbn [negb] in H; [|destruct H].
  destruct (dget (ni_node ng) lab) as [nb|] eqn:D; [|destruct H]. exists nb. split; [auto|]. split; [auto|].
  destruct (or_as (neighbor_local_as nb ng) None) as [nla|] eqn:L; [|destruct H].
  destruct (opt_z_eqb (bn_as na) (bn_as nb) && opt_z_eqb (node_local_as na l) (Some nla)) eqn:P; [destruct H|].
  destruct (is_true (a_v4 (bi_af l)) && negb (is_true (a_v4 (bi_af l)) && is_true (a_v4 (ni_af ng)))); [destruct H|].
  destruct (is_true v6 && negb (is_true v6 && is_true (a_v6 (ni_af ng)))); [destruct H|].
  match type of H with context [if ?b then (?u, [], [ErrNoLla _]) else _] => destruct b; [destruct H|] end.
  match type of H with context [if ?b then (?u, [], [ErrNoRfc8950 _]) else _] => destruct b; [destruct H|] end.
  match type of H with context [if ?b then (?u, [], [ErrLocalIbgp _]) else _] => destruct b; [destruct H|] end.
  destruct (bgp_neighbor _ _ _ _ _ _ _ _ _ _) as [y|] eqn:B; [|destruct H].
  apply bgp_neighbor_fields in B. destruct B as [B1 [B2 [B3 [B4 [B5 [B6 [B7 [B8 [B9 B10]]]]]]]]].
  assert (K : In (v, x) [(bi_vrf l, mk_bneighbor (nb_name y) (Some nla) (nb_type y) (nb_v4 y) (nb_v6 y) (nb_rr y)
                                 (nb_ifindex y) (nb_local_as y) (nb_local_if y) (nb_rfc8950 y))]).
  { destruct (bi_vrf l) as [w|]; cbn [fst snd] in H; [|exact H]. destruct (memS w (bn_vrf_off na)); [destruct H|exact H]. }
  clear H. destruct K as [K|[]]. injection K as <- <-. unfold ebgp_facts. cbn [nb_name nb_as nb_type nb_ifindex nb_local_as nb_v4 nb_v6].
  split; [auto|]. split; [auto|]. split; [auto|]. split; [exists nla; auto|]. split; [exact B3|]. split; [auto|].
  rewrite B3. split; [auto|]. split; [auto|].
  apply andb_false_iff in P. destruct P as [P|P]; apply opt_z_eqb_neq in P; auto.
Qed.

(* the session type on an interface *)
Definition pair_type (na : bnode) (l : bintf) (nla : Z) : stype :=
  if opt_z_eqb (Some nla) (node_local_as na l) then LocalasIbgp else Ebgp.

Lemma ebgp_one_complete : forall lab na l v6 ng nb nla,
  snd (ebgp_one lab na (node_sessions na) l v6 ng) = [] ->
  dget (ni_node ng) lab = Some nb -> or_as (neighbor_local_as nb ng) None = Some nla ->
  (bn_as na <> bn_as nb \/ node_local_as na l <> Some nla) ->
  (forall w, bi_vrf l = Some w -> ~ In w (bn_vrf_off na)) ->
  ((In (pair_type na l nla) (s_v4 (node_sessions na)) /\ a_v4 (ni_af ng) <> None)
   \/ (In (pair_type na l nla) (s_v6 (node_sessions na)) /\ a_v6 (ni_af ng) <> None)) ->
  exists x, In (bi_vrf l, x) (snd (fst (ebgp_one lab na (node_sessions na) l v6 ng))).
Proof.
  intros lab na l v6 ng nb nla E D L P V S. unfold ebgp_one in *.
  assert (A : has_af (ni_af ng) = true).
  { unfold has_af. destruct S as [[_ S]|[_ S]]; destruct (a_v4 (ni_af ng)); destruct (a_v6 (ni_af ng)); congruence. }
  rewrite A in *. cbn [negb] in *. rewrite D in *. rewrite L in *.
  assert (PF : opt_z_eqb (bn_as na) (bn_as nb) && opt_z_eqb (node_local_as na l) (Some nla) = false).
  { apply andb_false_iff. destruct P as [P|P]; apply opt_z_eqb_neq in P; auto. }
  rewrite PF in *.
  destruct (is_true (a_v4 (bi_af l)) && negb (is_true (a_v4 (bi_af l)) && is_true (a_v4 (ni_af ng)))); [discriminate|].
  destruct (is_true v6 && negb (is_true v6 && is_true (a_v6 (ni_af ng)))); [discriminate|].
  match type of E with context [if ?b then (?u, [], [ErrNoLla _]) else _] => destruct b; [discriminate|] end.
  match type of E with context [if ?b then (?u, [], [ErrNoRfc8950 _]) else _] => destruct b; [discriminate|] end.
  fold (pair_type na l nla) in *.
  match type of E with context [if ?b then (?u, [], [ErrLocalIbgp _]) else _] => destruct b; [discriminate|] end.
  destruct (bgp_neighbor _ _ _ _ _ _ _ _ _ _) as [y|] eqn:B.
  - destruct (bi_vrf l) as [w|] eqn:W; [|eexists; left; reflexivity].
    specialize (V w eq_refl). apply memS_false in V. rewrite V. eexists; left; reflexivity.
  - exfalso. match type of B with bgp_neighbor ?a ?b ?c ?d ?e ?f ?g ?h ?i ?j = None =>
      destruct (proj2 (bgp_neighbor_some a b c d e f g h i j) S) as [y C] end. congruence.
Qed.

Lemma ebgp_ngbs_In : forall lab node s l ngs v6 p, In p (fst (ebgp_ngbs lab node s l v6 ngs)) ->
  exists ng v6', In ng ngs /\ In p (snd (fst (ebgp_one lab node s l v6' ng))).
Proof.
  intros lab node s l. induction ngs as [|ng ngs IH]; intros v6 p H; cbn [ebgp_ngbs] in H; [destruct H|].
  destruct (ebgp_one lab node s l v6 ng) as [[v6' y] e] eqn:E. specialize (IH v6' p).
  destruct (ebgp_ngbs lab node s l v6' ngs) as [z e']. cbn [fst snd] in *. apply in_app_or in H. destruct H as [H|H].
  - exists ng, v6. split; [left; auto|]. rewrite E. auto.
  - destruct (IH H) as [ng' [v' [I1 I2]]]. exists ng', v'. split; [right; auto|auto].
Qed.

Lemma ebgp_ngbs_each : forall lab node s l ngs v6 ng, snd (ebgp_ngbs lab node s l v6 ngs) = [] -> In ng ngs ->
  exists v6', snd (ebgp_one lab node s l v6' ng) = []
    /\ forall p, In p (snd (fst (ebgp_one lab node s l v6' ng))) -> In p (fst (ebgp_ngbs lab node s l v6 ngs)).
Proof.
  intros lab node s l. induction ngs as [|n ngs IH]; intros v6 ng E H; [destruct H|]. cbn [ebgp_ngbs] in *.
  destruct (ebgp_one lab node s l v6 n) as [[v6' y] e] eqn:E1. specialize (IH v6' ng).
  destruct (ebgp_ngbs lab node s l v6' ngs) as [z e'] eqn:E2. cbn [fst snd] in *. apply app_eq_nil in E. destruct E as [-> ->].
  destruct H as [<-|H].
  - exists v6. rewrite E1. cbn [fst snd]. split; auto. intros p Hp. apply in_or_app. auto.
  - destruct (IH eq_refl H) as [v' [I1 I2]]. exists v'. split; auto. intros p Hp. apply in_or_app. auto.
Qed.

Lemma build_ebgp_In : forall lab node s ls p, In p (fst (build_ebgp_sessions lab node s ls)) ->
  exists l, In l ls /\ In p (fst (ebgp_intf lab node s l)).
Proof.
  intros lab node s. induction ls as [|l ls IH]; intros p H; cbn [build_ebgp_sessions] in H; [destruct H|].
  destruct (ebgp_intf lab node s l) as [y e] eqn:E. specialize (IH p).
  destruct (build_ebgp_sessions lab node s ls) as [z e']. cbn [fst] in *. apply in_app_or in H. destruct H as [H|H].
  - exists l. split; [left; auto|]. rewrite E. auto.
  - destruct (IH H) as [l' [I1 I2]]. exists l'. split; [right; auto|auto].
Qed.

Lemma build_ebgp_each : forall lab node s ls l, snd (build_ebgp_sessions lab node s ls) = [] -> In l ls ->
  snd (ebgp_intf lab node s l) = [] /\ forall p, In p (fst (ebgp_intf lab node s l)) -> In p (fst (build_ebgp_sessions lab node s ls)).
Proof.
  intros lab node s. induction ls as [|m ls IH]; intros l E H; [destruct H|]. cbn [build_ebgp_sessions] in *.
  destruct (ebgp_intf lab node s m) as [y e] eqn:E1. specialize (IH l).
  destruct (build_ebgp_sessions lab node s ls) as [z e'] eqn:E2. cbn [fst snd] in *. apply app_eq_nil in E. destruct E as [-> ->].
  destruct H as [<-|H].
  - rewrite E1. cbn [fst snd]. split; auto. intros p Hp. apply in_or_app. auto.
  - destruct (IH eq_refl H) as [I1 I2]. split; auto. intros p Hp. apply in_or_app. auto.
Qed.

(* Every EBGP session belongs to an interface and one of its neighbors running BGP in another AS (or
   using another AS on that interface) and has the AS number and the addresses of that neighbor. *)
Theorem ebgp_sessions_sound : forall lab a na v x,
  In (v, x) (fst (build_bgp_sessions lab a na)) -> nb_type x <> Ibgp ->
  exists l ng nb, In l (bn_intfs na) /\ In ng (bi_ngbs l) /\ dget (ni_node ng) lab = Some nb
    /\ bi_bgp_off l = false /\ has_af (bi_af l) = true /\ ebgp_facts na l ng nb v x.
Proof.
  intros lab a na v x H T. apply build_bgp_In in H. destruct H as [[_ H]|H].
  - apply build_ibgp_In in H. destruct H as [k [n [_ [_ H]]]]. apply ibgp_neighbor_In in H. tauto.
  - apply build_ebgp_In in H. destruct H as [l [Hl H]]. unfold ebgp_intf in H.
    destruct (bi_bgp_off l) eqn:O; [destruct H|]. destruct (has_af (bi_af l)) eqn:A; cbn [negb] in H; [|destruct H].
    match type of H with context [if ?b then ([], [ErrLocalAs _]) else _] => destruct b; [destruct H|] end.
    match type of H with context [if ?b then ([], [ErrVrfLocalAs _]) else _] => destruct b; [destruct H|] end.
    apply ebgp_ngbs_In in H. destruct H as [ng [v6 [Hn H]]]. apply ebgp_one_sound in H. destruct H as [nb [D [_ F]]].
    exists l, ng, nb. auto 10.
Qed.

(* The session exists whenever it should when no errors are reported. *)
Theorem ebgp_sessions_complete : forall lab a na l ng nb nla,
  snd (build_bgp_sessions lab a na) = [] -> In l (bn_intfs na) -> In ng (bi_ngbs l) ->
  bi_bgp_off l = false -> has_af (bi_af l) = true ->
  dget (ni_node ng) lab = Some nb -> or_as (neighbor_local_as nb ng) None = Some nla ->
  (bn_as na <> bn_as nb \/ node_local_as na l <> Some nla) ->
  (forall w, bi_vrf l = Some w -> ~ In w (bn_vrf_off na)) ->
  ((In (pair_type na l nla) (s_v4 (node_sessions na)) /\ a_v4 (ni_af ng) <> None)
   \/ (In (pair_type na l nla) (s_v6 (node_sessions na)) /\ a_v6 (ni_af ng) <> None)) ->
  exists x, In (bi_vrf l, x) (fst (build_bgp_sessions lab a na)) /\ ebgp_facts na l ng nb (bi_vrf l) x.
Proof.
  intros lab a na l ng nb nla E Hl Hn O A D L P V S.
  assert (E' : snd (build_ebgp_sessions lab na (node_sessions na) (bn_intfs na)) = []).
  { unfold build_bgp_sessions in E. destruct (build_ebgp_sessions lab na (node_sessions na) (bn_intfs na)). exact E. }
  destruct (build_ebgp_each _ _ _ _ _ E' Hl) as [E1 I1]. unfold ebgp_intf in E1, I1. rewrite O, A in E1, I1. cbn [negb] in E1, I1.
  match type of E1 with context [if ?b then ([], [ErrLocalAs _]) else _] => destruct b; [discriminate|] end.
  match type of E1 with context [if ?b then ([], [ErrVrfLocalAs _]) else _] => destruct b; [discriminate|] end.
  destruct (ebgp_ngbs_each _ _ _ _ _ _ _ E1 Hn) as [v6 [E2 I2]].
  destruct (ebgp_one_complete _ _ _ _ _ _ _ E2 D L P V S) as [x Hx]. exists x. split.
  - apply build_bgp_In. right. apply I1. apply I2. auto.
  - apply ebgp_one_sound in Hx. destruct Hx as [nb' [D' [_ F]]]. assert (nb' = nb) by congruence. subst. auto.
Qed.

(* node [a] has an EBGP session with node [b] over interface [l] *)
Definition ebgp_session (lab : blab) (a : string) (na : bnode) (l : bintf) (b : string) (x : bneighbor) : Prop :=
  In (bi_vrf l, x) (fst (build_bgp_sessions lab a na)) /\ nb_type x <> Ibgp /\ nb_name x = b /\ nb_ifindex x = Some (bi_ifindex l).

(* two interfaces of a link as seen by the nodes: each of them is in the neighbor list of the other one,
   interface indices and the neighbors of an interface are unique *)
Definition linked (a : string) (na : bnode) (la : bintf) (b : string) (nb : bnode) (lb : bintf) : Prop :=
  In la (bn_intfs na) /\ NoDup (map bi_ifindex (bn_intfs na)) /\ NoDup (map ni_node (bi_ngbs la))
  /\ exists ng, In ng (bi_ngbs la) /\ view_of b lb ng.

Definition vrf_runs_bgp (n : bnode) (l : bintf) : Prop := forall w, bi_vrf l = Some w -> ~ In w (bn_vrf_off n).

(* Over a link between two BGP nodes configured without reported errors, with BGP enabled on both
   interfaces and the default session types, the sessions exist exactly when the nodes do not use the
   same AS numbers. *)
Theorem ebgp_session_iff : forall lab a na la b nb lb asa asb,
  dget b lab = Some nb -> linked a na la b nb lb ->
  bi_bgp_off la = false -> bi_bgp_off lb = false -> has_af (bi_af la) = true -> has_af (bi_af lb) = true ->
  bn_sessions na = None -> vrf_runs_bgp na la -> snd (build_bgp_sessions lab a na) = [] ->
  uses_as na la asa -> uses_as nb lb asb ->
  ((exists x, ebgp_session lab a na la b x) <-> bn_as na <> bn_as nb \/ asa <> asb).
Proof.
  intros lab a na la b nb lb asa asb Db [Hl [NDi [NDn [ng [Hng V]]]]] Oa Ob Aa Ab Sa Va E Ua Ub.
  apply uses_as_node in Ua. apply uses_as_node in Ub.
  assert (La : node_local_as na la = Some asa).
  { destruct (or_as_spec (node_local_as na la) None) as [[_ C]|[z [_ [C1 C2]]]]; congruence. }
  assert (Lb : or_as (neighbor_local_as nb ng) None = Some asb) by (rewrite (view_local_as b nb lb ng V Ob); auto).
  assert (Db' : dget (ni_node ng) lab = Some nb) by (destruct V as [-> _]; auto). split.
  - intros [x [Hx [T [N I]]]]. destruct (ebgp_sessions_sound _ _ _ _ _ Hx T) as [l [ng' [nb' [Hl' [Hn' [D' [_ [_ F]]]]]]]].
    destruct F as [_ [F1 [F2 [[z [F3 F4]] [_ [_ [_ [_ F5]]]]]]]].
    assert (l = la).
    { assert (bi_ifindex l = bi_ifindex la) by congruence. revert H.
      apply (NoDup_map_inv_in _ _ _ _ NDi); auto. }
    subst l. assert (ng' = ng).
    { assert (EE : ni_node ng' = ni_node ng) by (destruct V as [-> _]; congruence). revert EE.
      apply (NoDup_map_inv_in _ _ _ _ NDn); auto. }
    subst ng'. assert (nb' = nb) by congruence. subst nb'. assert (z = asb) by congruence. subst z.
    destruct F5 as [F5|F5]; [auto|]. right. congruence.
  - intros P. destruct (ebgp_sessions_complete lab a na la ng nb asb) as [x [Hx F]]; auto.
    + destruct P as [P|P]; [auto|]. right. congruence.
    + destruct V as [_ [_ [_ V]]]. rewrite V. unfold node_sessions. rewrite Sa.
      assert (In (pair_type na la asb) (s_v4 default_sessions) /\ In (pair_type na la asb) (s_v6 default_sessions)).
      { unfold pair_type. destruct (opt_z_eqb _ _); cbn; auto 10. }
      unfold has_af in Ab. destruct (a_v4 (bi_af lb)); [left; split; [tauto|discriminate]|].
      destruct (a_v6 (bi_af lb)); [right; split; [tauto|discriminate]|discriminate].
    + exists x. destruct F as [_ [F1 [F2 [[z [F3 F4]] [F5 _]]]]]. split; [auto|]. split.
      * rewrite F5. destruct (opt_z_eqb _ _); discriminate.
      * split; [|auto]. destruct V as [V _]. congruence.
Qed.

(* The sessions are symmetric: they exist on both sides, have the same type, and the remote AS on one
   side is the AS used by the other side (its local AS for this session or its own AS). *)
Theorem ebgp_symmetric : forall lab a na la b nb lb asa asb x,
  dget a lab = Some na -> dget b lab = Some nb -> linked a na la b nb lb -> linked b nb lb a na la ->
  bi_bgp_off la = false -> bi_bgp_off lb = false -> has_af (bi_af la) = true -> has_af (bi_af lb) = true ->
  bn_sessions na = None -> bn_sessions nb = None -> vrf_runs_bgp na la -> vrf_runs_bgp nb lb ->
  snd (build_bgp_sessions lab a na) = [] -> snd (build_bgp_sessions lab b nb) = [] ->
  uses_as na la asa -> uses_as nb lb asb ->
  ebgp_session lab a na la b x ->
  (exists y, ebgp_session lab b nb lb a y)
  /\ (forall y, ebgp_session lab b nb lb a y ->
        nb_type x = nb_type y /\ nb_as x = Some asb /\ nb_as y = Some asa
        /\ nb_as x = or_as (nb_local_as y) (bn_as nb) /\ nb_as y = or_as (nb_local_as x) (bn_as na)).
Proof.
  intros lab a na la b nb lb asa asb x Da Db La Lb Oa Ob Aa Ab Sa Sb Va Vb Ea Eb Ua Ub X.
  assert (P : bn_as na <> bn_as nb \/ asa <> asb).
  { apply (ebgp_session_iff lab a na la b nb lb asa asb); eauto. }
  split.
  - apply (ebgp_session_iff lab b nb lb a na la asb asa); auto. destruct P as [P|P]; auto.
  - intros y Y.
    assert (K : forall a na la b nb lb asa asb x, dget b lab = Some nb -> linked a na la b nb lb -> bi_bgp_off lb = false ->
       uses_as na la asa -> uses_as nb lb asb -> ebgp_session lab a na la b x ->
       nb_as x = Some asb /\ nb_type x = (if opt_z_eqb (Some asb) (Some asa) then LocalasIbgp else Ebgp)
       /\ or_as (nb_local_as x) (bn_as na) = Some asa).
    { clear. intros a na la b nb lb asa asb x Db [Hl [NDi [NDn [ng [Hng V]]]]] Ob Ua Ub [Hx [T [N I]]].
      apply uses_as_node in Ua. apply uses_as_node in Ub.
      assert (La : node_local_as na la = Some asa).
      { destruct (or_as_spec (node_local_as na la) None) as [[_ C]|[z [_ [C1 C2]]]]; congruence. }
      destruct (ebgp_sessions_sound _ _ _ _ _ Hx T) as [l [ng' [nb' [Hl' [Hn' [D' [_ [_ F]]]]]]]].
      destruct F as [_ [F1 [F2 [[z [F3 F4]] [F5 [F6 _]]]]]].
      assert (l = la).
      { assert (bi_ifindex l = bi_ifindex la) by congruence. revert H.
        apply (NoDup_map_inv_in _ _ _ _ NDi); auto. }
      subst l. assert (ng' = ng).
      { assert (EE : ni_node ng' = ni_node ng) by (destruct V as [-> _]; congruence). revert EE.
        apply (NoDup_map_inv_in _ _ _ _ NDn); auto. }
      subst ng'. assert (nb' = nb) by (destruct V as [V _]; congruence). subst nb'.
      assert (z = asb) by (rewrite (view_local_as b nb lb ng V Ob) in F4; congruence). subst z.
      split; [auto|]. split; [rewrite F5, F3, La; auto|]. rewrite F6. rewrite <- La. unfold node_local_as.
      destruct (or_as_spec (bi_local_as la) (bn_local_as na)) as [[A1 B1]|[z1 [Z1 [A1 B1]]]]; rewrite B1.
      - destruct (or_as_spec (bi_local_as la) (or_as (bn_local_as na) (bn_as na))) as [[_ ->]|[z2 [Z2 [A2 _]]]]; auto.
        destruct A1; congruence.
      - rewrite A1. destruct z1; auto. congruence. }
    destruct (K a na la b nb lb asa asb x Db La Ob Ua Ub X) as [X1 [X2 X3]].
    destruct (K b nb lb a na la asb asa y Da Lb Oa Ub Ua Y) as [Y1 [Y2 Y3]].
    split; [rewrite X2, Y2; cbn [opt_z_eqb]; rewrite Z.eqb_sym; auto|]. split; [auto|]. split; [auto|].
    split; [rewrite X1, Y3; auto|rewrite X3, Y1; auto].
Qed.

(* two routers in different ASes on a link; the first one uses local AS 65100 on it *)
Definition eb_intf (local_as : option Z) (addr : bafs) (off : bool) (ngbs : list bngb) : bintf :=
  mk_bintf 1 off local_as addr None ngbs.
Definition v4a : bafs := mk_afs (Some (AAddr "10.1.0.1")) None.
Definition v4b : bafs := mk_afs (Some (AAddr "10.1.0.2")) None.
Definition eb_a : bnode := lab_node 65000 None None [eb_intf (Some 65100) v4a false [mk_bngb "b" false None v4b]].
Definition eb_b : bnode := lab_node 65001 None None [eb_intf None v4b false [mk_bngb "a" false (Some 65100) v4a]].
Definition eb_lab : blab := [("a", eb_a); ("b", eb_b)]%string.

Example ebgp_case :
  let la := eb_intf (Some 65100) v4a false [mk_bngb "b" false None v4b] in
  let lb := eb_intf None v4b false [mk_bngb "a" false (Some 65100) v4a] in
  linked "a" eb_a la "b" eb_b lb /\ linked "b" eb_b lb "a" eb_a la /\ uses_as eb_a la 65100 /\ uses_as eb_b lb 65001
  /\ build_bgp_sessions eb_lab "a" eb_a
     = ([(None, mk_bneighbor "b" (Some 65001) Ebgp (Some (AAddr "10.1.0.2")) None None (Some 1) (Some 65100) false false)], [])
  /\ build_bgp_sessions eb_lab "b" eb_b
     = ([(None, mk_bneighbor "a" (Some 65100) Ebgp (Some (AAddr "10.1.0.1")) None None (Some 1) None false false)], []).
Proof.
  cbv zeta. split; [|split; [|split; [|split; [|split; reflexivity]]]].
  - split; [left; auto|]. split; [repeat constructor; intros []|]. split; [repeat constructor; intros []|].
    eexists. split; [left; reflexivity|]. repeat split.
  - split; [left; auto|]. split; [repeat constructor; intros []|]. split; [repeat constructor; intros []|].
    eexists. split; [left; reflexivity|]. repeat split.
  - split; [discriminate|]. left. reflexivity.
  - split; [discriminate|]. right. split; [left; reflexivity|]. right. split; [left; reflexivity|reflexivity].
Qed.

(* BGP disabled on the interface of one node: the other node still has the session. *)
Theorem ebgp_disabled_one_side_refuted : exists lab na nb,
  dget "a"%string lab = Some na /\ dget "b"%string lab = Some nb
  /\ build_bgp_sessions lab "a" na = ([], [])
  /\ exists x, build_bgp_sessions lab "b" nb = ([(None, x)], []) /\ nb_name x = "a"%string.
Proof.
  pose (na := lab_node 65000 None None [eb_intf None v4a true [mk_bngb "b" false None v4b]]).
  pose (nb := lab_node 65001 None None [eb_intf None v4b false [mk_bngb "a" true None v4a]]).
  exists [("a", na); ("b", nb)]%string, na, nb. split; [reflexivity|]. split; [reflexivity|]. split; [reflexivity|].
  eexists. split; reflexivity.
Qed.

(* The address families of the two sides can differ: a node without IPv6 on the link gets an IPv6
   neighbor address when the other interface is dual-stack. *)
Theorem ebgp_af_symmetric_refuted : exists lab na nb x y,
  dget "a"%string lab = Some na /\ dget "b"%string lab = Some nb
  /\ build_bgp_sessions lab "a" na = ([(None, x)], []) /\ build_bgp_sessions lab "b" nb = ([(None, y)], [])
  /\ (forall l, In l (bn_intfs nb) -> a_v6 (bi_af l) = None) /\ nb_v6 x = None /\ nb_v6 y <> None.
Proof.
  pose (dual := mk_afs (Some (AAddr "10.1.0.1"%string)) (Some (AAddr "2001:db8::1"%string))).
  pose (na := lab_node 65000 None None [eb_intf None dual false [mk_bngb "b" false None v4b]]).
  pose (nb := lab_node 65001 None None [eb_intf None v4b false [mk_bngb "a" false None dual]]).
  exists [("a", na); ("b", nb)]%string, na, nb. eexists _, _. split; [reflexivity|]. split; [reflexivity|].
  split; [reflexivity|]. split; [reflexivity|]. split.
  - intros l [<-|[]]. reflexivity.
  - split; [reflexivity|discriminate].
Qed.

(* An unnumbered IPv4 interface with two neighbors: the session with the first neighbor turns the
   interface into an IPv6 LLA interface, and the session with the second one is rejected. *)
Theorem unnumbered_two_neighbors_refuted : exists lab na,
  dget "a"%string lab = Some na
  /\ (forall l ng, In l (bn_intfs na) -> In ng (bi_ngbs l) -> bi_af l = ni_af ng)
  /\ map (fun p => nb_name (snd p)) (fst (build_bgp_sessions lab "a" na)) = ["b"]%string
  /\ snd (build_bgp_sessions lab "a" na) = [ErrV6Lla "c"].
Proof.
  pose (un := mk_afs (Some (ABool true)) None).
  pose (na := lab_node 65000 None None [eb_intf None un false [mk_bngb "b" false None un; mk_bngb "c" false None un]]).
  exists [("a", na); ("b", lab_node 65001 None None []); ("c", lab_node 65002 None None [])]%string, na.
  split; [reflexivity|]. split; [|split; reflexivity].
  intros l ng [<-|[]] [<-|[<-|[]]]; reflexivity.
Qed.

(* ------------------------------------------------------------------ *)
(* C42: AS list                                                         *)

Definition as_member (l : list (Z * as_entry)) (n : string) (asn : Z) : Prop :=
  exists a, In (asn, a) l /\ In n (ae_members a).
Definition as_rr_listed (l : list (Z * as_entry)) (n : string) : Prop :=
  exists asn a, In (asn, a) l /\ In n (ae_rr a).

Lemma nd_get_dset : forall n m x d, nd_get n (dset m x d) = if String.eqb n m then x else nd_get n d.
Proof.
  intros n m x d. unfold nd_get. destruct (String.eqb_spec n m) as [->|N].
  - rewrite dget_dset_same. auto.
  - rewrite dget_dset_other; auto.
Qed.

Lemma as_members_ok : forall asn l d d', as_members asn l d = (d', []) ->
  NoDup l /\ (forall n, In n l -> ad_as (nd_get n d) = None)
  /\ (forall n, ad_rr (nd_get n d') = ad_rr (nd_get n d))
  /\ (forall n, ad_as (nd_get n d') = if memS n l then Some asn else ad_as (nd_get n d)).
Proof.
  intros asn. induction l as [|m l IH]; intros d d' H; cbn [as_members] in H.
  - injection H as <-. split; [constructor|]. split; [intros n []|]. split; auto.
  - destruct (ad_as (nd_get m d)) eqn:E; [destruct (as_members asn l d); discriminate|].
    apply IH in H. destruct H as [H1 [H2 [H3 H4]]].
    assert (Nm : ~ In m l).
    { intros C. apply H2 in C. rewrite nd_get_dset, String.eqb_refl in C. discriminate. }
    split; [constructor; auto|]. split; [|split].
    + intros n [<-|Hn]; auto. pose proof (H2 n Hn) as C. rewrite nd_get_dset in C.
      destruct (String.eqb_spec n m) as [->|N]; [contradiction|auto].
    + intros n. rewrite H3, nd_get_dset. destruct (String.eqb_spec n m) as [->|N]; auto.
    + intros n. rewrite H4, nd_get_dset. cbn [memS existsb]. unfold memS.
      destruct (String.eqb_spec n m) as [->|N]; cbn [orb ad_as]; auto.
      destruct (existsb (String.eqb m) l); auto.
Qed.

Lemma as_rrs_ok : forall asn l d d', as_rrs asn l d = (d', []) ->
  (forall n, In n l -> ad_as (nd_get n d) = Some asn)
  /\ (forall n, ad_as (nd_get n d') = ad_as (nd_get n d))
  /\ (forall n, ad_rr (nd_get n d') = if memS n l then true else ad_rr (nd_get n d)).
Proof.
  intros asn. induction l as [|m l IH]; intros d d' H; cbn [as_rrs] in H.
  - injection H as <-. split; [intros n []|]. split; auto.
  - destruct (opt_z_eqb (ad_as (nd_get m d)) (Some asn)) eqn:E.
    2:{ destruct (as_rrs asn l (dset m (nd_get m d) d)); discriminate. }
    apply opt_z_eqb_eq in E. apply IH in H. destruct H as [H1 [H2 H3]]. split; [|split].
    + intros n [<-|Hn]; [auto|]. apply H1 in Hn. rewrite nd_get_dset in Hn. destruct (String.eqb_spec n m) as [E'|N]; [rewrite E'; auto|auto].
    + intros n. rewrite H2, nd_get_dset. destruct (String.eqb_spec n m) as [E'|N]; [rewrite E'|]; auto.
    + intros n. rewrite H3, nd_get_dset. unfold memS. cbn [existsb].
      destruct (String.eqb_spec n m) as [->|N]; cbn [orb ad_rr]; auto. destruct (existsb (String.eqb m) l); auto.
Qed.

Lemma as_list_ok : forall l d d', as_list_data l d = (d', []) ->
  NoDup (flat_map (fun e => ae_members (snd e)) l)
  /\ (forall n, In n (flat_map (fun e => ae_members (snd e)) l) -> ad_as (nd_get n d) = None)
  /\ (forall n asn, ad_as (nd_get n d') = Some asn <-> ad_as (nd_get n d) = Some asn \/ as_member l n asn)
  /\ (forall n, ad_rr (nd_get n d') = true <-> ad_rr (nd_get n d) = true \/ as_rr_listed l n)
  /\ (forall asn a n, In (asn, a) l -> In n (ae_rr a) -> ad_as (nd_get n d') = Some asn).
Proof.
  induction l as [|[asn a] l IH]; intros d d' H; cbn [as_list_data] in H.
  - injection H as <-. split; [constructor|]. split; [intros n []|]. split; [|split].
    + intros n asn. split; auto. intros [C|[a [[] _]]]. auto.
    + intros n. split; auto. intros [C|[asn [a [[] _]]]]. auto.
    + intros asn a n [].
  - destruct (as_members asn (ae_members a) d) as [d1 e1] eqn:E1. destruct (as_rrs asn (ae_rr a) d1) as [d2 e2] eqn:E2.
    destruct (as_list_data l d2) as [d3 e3] eqn:E3. injection H as <- He.
    apply app_eq_nil in He. destruct He as [-> He]. apply app_eq_nil in He. destruct He as [-> ->].
    apply as_members_ok in E1. destruct E1 as [M1 [M2 [M3 M4]]]. apply as_rrs_ok in E2. destruct E2 as [R1 [R2 R3]].
    apply IH in E3. destruct E3 as [L1 [L2 [L3 [L4 L5]]]].
    assert (Old : forall n, In n (flat_map (fun e => ae_members (snd e)) l) -> ad_as (nd_get n d) = None /\ ~ In n (ae_members a)).
    { intros n Hn. apply L2 in Hn. rewrite R2, M4 in Hn. destruct (memS n (ae_members a)) eqn:M; [discriminate|].
      apply memS_false in M. auto. }
    split; [|split; [|split; [|split]]].
    + cbn [flat_map snd]. apply NoDup_app_intro; auto. intros n H1 H2. apply Old in H2. tauto.
    + cbn [flat_map snd]. intros n Hn. apply in_app_or in Hn. destruct Hn as [Hn|Hn]; [auto|]. apply Old in Hn. tauto.
    + intros n asn'. rewrite L3, R2, M4. destruct (memS n (ae_members a)) eqn:M.
      * apply memS_true in M. rewrite (M2 n M). split.
        -- intros [C|[a' [C1 C2]]].
           ++ injection C as <-. right. exists a. split; [left; auto|auto].
           ++ right. exists a'. split; [right; auto|auto].
        -- intros [C|[a' [[C1|C1] C2]]]; [discriminate| |].
           ++ injection C1 as -> ->. auto.
           ++ right. exists a'. auto.
      * apply memS_false in M. split.
        -- intros [C|[a' [C1 C2]]]; auto. right. exists a'. split; [right; auto|auto].
        -- intros [C|[a' [[C1|C1] C2]]]; auto.
           ++ injection C1 as -> ->. contradiction.
           ++ right. exists a'. auto.
    + intros n. rewrite L4, R3, M3. destruct (memS n (ae_rr a)) eqn:M.
      * apply memS_true in M. split; auto. intros _. right. exists asn, a. split; [left; auto|auto].
      * apply memS_false in M. split.
        -- intros [C|[x [a' [C1 C2]]]]; auto. right. exists x, a'. split; [right; auto|auto].
        -- intros [C|[x [a' [[C1|C1] C2]]]]; auto.
           ++ injection C1 as -> ->. contradiction.
           ++ right. exists x, a'. auto.
    + intros asn' a' n [C|C] Hn.
      * injection C as <- <-. apply L3. left. rewrite R2. auto.
      * eapply L5; eauto.
Qed.

(* When the AS list is processed without errors, every node is listed at most once as a member, route
   reflectors are members of their AS, and the AS and the route reflector flag of a node come from the
   node or, when missing there, from the list. *)
Theorem as_list_applied : forall l nodes nodes', process_as_list l nodes = (nodes', []) ->
  NoDup (flat_map (fun e => ae_members (snd e)) l)
  /\ (forall asn a n, In (asn, a) l -> In n (ae_rr a) -> as_member l n asn)
  /\ map fst nodes' = map fst nodes
  /\ forall k n, dget k nodes = Some n -> NoDup (dkeys nodes) -> exists n', dget k nodes' = Some n'
     /\ (forall asn, as_member l k asn -> an_as n' = Some asn \/ an_as n = Some 0)
     /\ (~ absent (an_as n) -> an_as n' = an_as n)
     /\ ((forall asn, ~ as_member l k asn) -> an_as n' = an_as n)
     /\ (an_rr n <> None -> an_rr n' = an_rr n)
     /\ (an_rr n = None -> (an_rr n' = Some true <-> as_rr_listed l k) /\ an_rr n' <> Some false).
Proof.
  intros l nodes nodes' H. unfold process_as_list in H. destruct (as_list_data l []) as [d e] eqn:E. injection H as <- He.
  apply app_eq_nil in He. destruct He as [-> He]. apply as_list_ok in E. destruct E as [L1 [_ [L3 [L4 L5]]]].
  assert (L3' : forall n asn, ad_as (nd_get n d) = Some asn <-> as_member l n asn).
  { intros n asn. rewrite L3. split; auto. intros [C|C]; [discriminate|auto]. }
  assert (L4' : forall n, ad_rr (nd_get n d) = true <-> as_rr_listed l n).
  { intros n. rewrite L4. split; auto. intros [C|C]; [discriminate|auto]. }
  split; [auto|]. split; [intros asn a n H1 H2; apply L3'; eauto|]. split.
  - rewrite !map_map. apply map_ext. intros [k n]. unfold as_apply. cbn [fst snd].
    destruct (dget k d); auto. destruct (or_as (an_as n) None); auto. destruct (opt_z_eqb _ _); auto.
  - intros k n Hk ND. assert (In (k, n) nodes) as Hin by (apply dget_In; auto).
    assert (Ek : snd (as_apply d (k, n)) = []).
    { destruct (snd (as_apply d (k, n))) as [|x r] eqn:C; auto. exfalso.
      assert (In x (flat_map snd (map (as_apply d) nodes))).
      { apply in_flat_map. exists (as_apply d (k, n)). split; [apply in_map; auto|]. rewrite C. left. auto. }
      rewrite He in H. destruct H. }
    exists (snd (fst (as_apply d (k, n)))). split.
    { clear - Hk. induction nodes as [|[k' m] nodes IH]; [discriminate|]. cbn [map dget] in *.
      assert (F : forall q, fst (fst (as_apply d (k', q))) = k').
      { intros q. unfold as_apply. cbn [fst snd]. destruct (dget k' d); auto. destruct (or_as (an_as q) None); auto. destruct (opt_z_eqb _ _); auto. }
      specialize (F m). destruct (as_apply d (k', m)) as [[k'' m'] e'] eqn:A. cbn [fst] in *. subst k''.
      cbn [fst]. destruct (String.eqb_spec k k') as [->|N]; [|auto].
      injection Hk as ->. rewrite A. auto. }
    unfold as_apply in *. cbn [fst snd] in *.
    assert (G : nd_get k d = match dget k d with Some x => x | None => mk_as_data None false end) by reflexivity.
    destruct (dget k d) as [x|] eqn:D.
    + destruct (or_as_spec (an_as n) None) as [[A O]|[z [Z [A O]]]]; rewrite O in *; cbn [fst snd an_as an_rr].
      * split; [|split; [|split; [|split]]].
        -- intros asn M. apply L3' in M. rewrite G in M. destruct (an_as n) as [w|]; [|auto]. right. destruct A; congruence.
        -- intros C. contradiction.
        -- intros C. destruct (an_as n) as [w|] eqn:W; auto. destruct (ad_as x) as [w|] eqn:W'; auto.
           exfalso. apply (C w). apply L3'. rewrite G. auto.
        -- intros C. destruct (an_rr n); congruence.
        -- intros C. rewrite C. rewrite <- (L4' k), G. destruct (ad_rr x); split; try discriminate; split; congruence.
      * destruct (opt_z_eqb (Some z) (ad_as x)) eqn:Q; [|discriminate]. apply opt_z_eqb_eq in Q. cbn [fst snd an_as an_rr].
        split; [|split; [|split; [|split]]].
        -- intros asn M. apply L3' in M. rewrite G in M. left. congruence.
        -- auto.
        -- auto.
        -- intros C. destruct (an_rr n); congruence.
        -- intros C. rewrite C. rewrite <- (L4' k), G. destruct (ad_rr x); split; try discriminate; split; congruence.
    + cbn [fst snd]. split; [|split; [|split; [|split]]]; auto.
      * intros asn M. apply L3' in M. rewrite G in M. discriminate.
      * intros C. rewrite C. rewrite <- (L4' k), G. cbn [ad_rr]. split; [split; discriminate|discriminate].
Qed.

Example as_list_case : process_as_list [(65000, mk_as_entry ["a"; "b"] ["a"]); (65001, mk_as_entry ["c"] [])]%string
   [("a", mk_as_node None None); ("b", mk_as_node (Some 65000) (Some false)); ("c", mk_as_node None None); ("d", mk_as_node (Some 65002) None)]%string
 = ([("a", mk_as_node (Some 65000) (Some true)); ("b", mk_as_node (Some 65000) (Some false)); ("c", mk_as_node (Some 65001) None); ("d", mk_as_node (Some 65002) None)]%string, []).
Proof. reflexivity. Qed.

(* a node listed twice, a route reflector that is not a member and a node with another AS are reported *)
Example as_list_errors : process_as_list [(65000, mk_as_entry ["a"; "b"] ["c"]); (65001, mk_as_entry ["a"] [])]%string
   [("b", mk_as_node (Some 65002) None)]%string
 = ([("b", mk_as_node (Some 65002) None)]%string, [AsNotMember "c"; AsTwice "a"; AsMismatch "b"]%string).
Proof. reflexivity. Qed.

(* ------------------------------------------------------------------ *)
(* C67: route reflector clusters                                        *)

Lemma str_leb_refl : forall s, str_leb s s = true.
Proof. induction s as [|c s IH]; cbn [str_leb]; auto. rewrite Ascii.eqb_refl. auto. Qed.

Lemma N_of_ascii_inj : forall a b, N_of_ascii a = N_of_ascii b -> a = b.
Proof. intros a b H. rewrite <- (ascii_N_embedding a), <- (ascii_N_embedding b), H. auto. Qed.

Lemma str_leb_trans : forall a b c, str_leb a b = true -> str_leb b c = true -> str_leb a c = true.
Proof.
  induction a as [|x a IH]; intros [|y b] [|z c] H1 H2; cbn [str_leb] in *; auto; try discriminate.
  destruct (Ascii.eqb_spec x y) as [->|N1]; destruct (Ascii.eqb_spec y z) as [->|N2].
  - eauto.
  - auto.
  - destruct (Ascii.eqb_spec x z); [congruence|auto].
  - apply N.leb_le in H1. apply N.leb_le in H2. destruct (Ascii.eqb_spec x z) as [->|N3].
    + exfalso. apply N1. apply N_of_ascii_inj. lia.
    + apply N.leb_le. lia.
Qed.

Lemma str_leb_total : forall a b, str_leb a b = true \/ str_leb b a = true.
Proof.
  induction a as [|x a IH]; intros [|y b]; cbn [str_leb]; auto.
  destruct (Ascii.eqb_spec x y) as [->|N1].
  - rewrite Ascii.eqb_refl. auto.
  - destruct (Ascii.eqb_spec y x) as [->|N2]; [congruence|]. rewrite !N.leb_le. lia.
Qed.

Lemma str_min_spec : forall l, match str_min l with
  | None => l = []
  | Some m => In m l /\ forall x, In x l -> str_leb m x = true
  end.
Proof.
  induction l as [|x l IH]; cbn [str_min]; auto. destruct (str_min l) as [m|].
  - destruct IH as [I1 I2]. destruct (str_leb x m) eqn:E.
    + split; [left; auto|]. intros y [<-|Hy]; [apply str_leb_refl|]. eapply str_leb_trans; eauto.
    + split; [right; auto|]. intros y [<-|Hy]; auto. destruct (str_leb_total x m); congruence.
  - subst l. split; [left; auto|]. intros y [<-|[]]. apply str_leb_refl.
Qed.

(* a route reflector without a configured cluster id *)
Definition auto_rr (lab : blab) (k : string) (n : bnode) (asn : Z) : Prop :=
  In (k, n) lab /\ bn_bgp n = true /\ bn_as n = Some asn /\ bn_rr n = Some true /\ bn_cluster n = None.

(* Route reflectors of an AS without a configured cluster id share one: the router id of one of them,
   the smallest one as text. Configured cluster ids and other nodes do not change. *)
Theorem rr_cluster_shared : forall lab asn k n, auto_rr lab k n asn ->
  exists k0 n0, auto_rr lab k0 n0 asn /\ rr_cluster lab n = Some (bn_router_id n0)
    /\ (forall k' n', auto_rr lab k' n' asn -> rr_cluster lab n' = rr_cluster lab n /\ str_leb (bn_router_id n0) (bn_router_id n') = true).
Proof.
  intros lab asn k n A.
  set (c := flat_map (fun kn : string * bnode => match bn_cluster (snd kn) with None => [bn_router_id (snd kn)] | Some _ => [] end)
                     (find_bgp_rr (Some asn) lab)).
  assert (Cand : forall i, In i c <-> exists k' n', auto_rr lab k' n' asn /\ bn_router_id n' = i).
  { intros i. unfold c. rewrite in_flat_map. split.
    - intros [[k' n'] [H1 H2]]. apply find_bgp_rr_In in H1. cbn [snd] in H2. destruct (bn_cluster n') eqn:E; [destruct H2|].
      destruct H2 as [<-|[]]. exists k', n'. split; auto. unfold auto_rr. tauto.
    - intros [k' [n' [[H1 [H2 [H3 [H4 H5]]]] <-]]]. exists (k', n'). split; [apply find_bgp_rr_In; auto|].
      cbn [snd]. rewrite H5. left. auto. }
  assert (Val : forall k' n', auto_rr lab k' n' asn -> rr_cluster lab n' = match str_min c with Some i => Some i | None => Some (bn_router_id n') end).
  { intros k' n' [H1 [H2 [H3 [H4 H5]]]]. unfold rr_cluster. rewrite H3, H2, H5. apply is_rr_spec in H4. rewrite H4. reflexivity. }
  pose proof (str_min_spec c) as M. destruct (str_min c) as [m|].
  - destruct M as [M1 M2]. apply Cand in M1. destruct M1 as [k0 [n0 [A0 E]]]. exists k0, n0. split; [auto|]. split.
    + rewrite (Val _ _ A), E. auto.
    + intros k' n' A'. rewrite (Val _ _ A), (Val _ _ A'). split; auto. rewrite E. apply M2. apply Cand. eauto.
  - exfalso. assert (In (bn_router_id n) c) by (apply Cand; eauto). rewrite M in H. destruct H.
Qed.

Theorem rr_cluster_kept : forall lab n, bn_cluster n <> None \/ bn_rr n <> Some true -> rr_cluster lab n = bn_cluster n.
Proof.
  intros lab n H. unfold rr_cluster. destruct (bn_as n); auto. destruct (bn_bgp n); auto. cbn [andb].
  destruct (is_rr n) eqn:R; auto. apply is_rr_spec in R. destruct (bn_cluster n); auto. exfalso. destruct H; auto.
Qed.

Definition rr_node (rid : string) (c : option string) : bnode :=
  mk_bnode true (Some 65000) None (Some true) rid c None false [] None [] all_features.

(* The comparison is textual: the cluster id is not the lowest address. *)
Theorem rr_cluster_lowest_refuted : exists lab n1 n2 a1 a2,
  auto_rr lab "r1" n1 65000 /\ auto_rr lab "r2" n2 65000
  /\ parse_ipv4 (bn_router_id n1) = Some a1 /\ parse_ipv4 (bn_router_id n2) = Some a2 /\ a1 < a2
  /\ rr_cluster lab n1 = Some (bn_router_id n2) /\ rr_cluster lab n2 = Some (bn_router_id n2).
Proof.
  exists [("r1", rr_node "10.0.0.9" None); ("r2", rr_node "10.0.0.10" None)]%string, (rr_node "10.0.0.9" None), (rr_node "10.0.0.10" None).
  eexists _, _. split; [repeat split; left; auto|]. split; [repeat split; right; left; auto|].
  split; [vm_compute; reflexivity|]. split; [vm_compute; reflexivity|]. split; [reflexivity|]. split; reflexivity.
Qed.

(* ------------------------------------------------------------------ *)
(* C68: activation of address families                                  *)

(* With the flag computed from the sessions, an address family of a session is activated exactly when
   the session type is listed for it, and inactive address families have no sessions. *)
Theorem af_activated : forall pick l types flag x, In x l -> pick x <> None ->
  activate_af (af_flag pick l flag) types pick x = Some true <-> In (nb_type x) types.
Proof.
  intros pick l types flag x H P. unfold activate_af, af_flag.
  assert (E : existsb (fun x => match pick x with Some _ => true | None => false end) l = true).
  { apply existsb_exists. exists x. split; auto. destruct (pick x); congruence. }
  rewrite E. destruct (pick x); [|congruence]. cbn [andb]. rewrite <- mem_stype_In. split; congruence.
Qed.

Theorem af_flag_spec : forall pick l flag, af_flag pick l flag = true <-> flag = true \/ exists x, In x l /\ pick x <> None.
Proof.
  intros pick l flag. unfold af_flag.
  destruct (existsb (fun x => match pick x with Some _ => true | None => false end) l) eqn:E.
  - split; auto. intros _. right. apply existsb_exists in E. destruct E as [x [H P]]. exists x. split; auto. destruct (pick x); congruence.
  - split; auto. intros [H|[x [H P]]]; auto. exfalso.
    assert (existsb (fun x => match pick x with Some _ => true | None => false end) l = true).
    { apply existsb_exists. exists x. split; auto. destruct (pick x); congruence. }
    congruence.
Qed.

(* IBGP sessions made with local AS are not activated by listing ibgp (lines 447-448 were meant to do that). *)
Theorem activate_localas_refuted : exists x, nb_type x = LocalasIbgp /\ nb_v4 x <> None
  /\ activate_af (af_flag nb_v4 [x] false) [Ibgp] nb_v4 x = Some false.
Proof.
  exists (mk_bneighbor "b" (Some 65000) LocalasIbgp (Some (AAddr "10.1.0.2")) None None (Some 1) (Some 65000) false false).
  split; [reflexivity|]. split; [discriminate|reflexivity].
Qed.

(* ------------------------------------------------------------------ *)
(* C69: EBGP link role                                                  *)

Lemma distinct_as_spec : forall l acc, NoDup acc ->
  let r := fold_left (fun acc a => match or_as a None with Some x => if memZ x acc then acc else acc ++ [x] | None => acc end) l acc in
  NoDup r /\ (forall z, In z r <-> In z acc \/ (z <> 0 /\ In (Some z) l)).
Proof.
  induction l as [|a l IH]; intros acc ND; cbn [fold_left].
  - split; auto. intros z. split; auto. intros [H|[_ []]]. auto.
  - destruct (or_as_spec a None) as [[A E]|[z [Z [A E]]]]; rewrite E.
    + destruct (IH acc ND) as [I1 I2]. split; auto. intros z. rewrite I2. split.
      * intros [H|[H1 H2]]; auto. right. split; auto. right. auto.
      * intros [H|[H1 [H2|H2]]]; auto. exfalso. destruct A; congruence.
    + destruct (memZ z acc) eqn:M.
      * apply memZ_true in M. destruct (IH acc ND) as [I1 I2]. split; auto. intros w. rewrite I2. split.
        -- intros [H|[H1 H2]]; auto. right. split; auto. right. auto.
        -- intros [H|[H1 [H2|H2]]]; auto. assert (w = z) by congruence. subst w. auto.
      * apply memZ_false in M. destruct (IH (acc ++ [z])) as [I1 I2].
        { apply NoDup_app_intro; auto; [repeat constructor; intros []|]. intros w H1 [<-|[]]. auto. }
        split; auto. intros w. rewrite I2, in_app_iff. split.
        -- intros [[H|[<-|[]]]|[H1 H2]]; auto.
           ++ right. split; auto. left. auto.
           ++ right. split; auto. right. auto.
        -- intros [H|[H1 [H2|H2]]]; auto. assert (w = z) by congruence. subst w. left. right. left. auto.
Qed.

(* A link without a role becomes an EBGP link exactly when nodes from two ASes are attached to it; the
   configured role is kept. *)
Theorem ebgp_role_spec : forall asns r, r <> EmptyString ->
  (ebgp_role_link None asns r = Some r <-> exists a b, a <> b /\ a <> 0 /\ b <> 0 /\ In (Some a) asns /\ In (Some b) asns)
  /\ (ebgp_role_link None asns r = Some r \/ ebgp_role_link None asns r = None)
  /\ (forall role, role <> EmptyString -> ebgp_role_link (Some role) asns r = Some role).
Proof.
  intros asns r Nr. split; [|split].
  - unfold ebgp_role_link. destruct (distinct_as_spec asns [] (NoDup_nil Z)) as [D1 D2]. fold (distinct_as asns) in D1, D2.
    destruct (1 <? Z.of_nat (length (distinct_as asns))) eqn:L.
    + split; auto. intros _. apply Z.ltb_lt in L. destruct (distinct_as asns) as [|a [|b q]]; cbn [length] in L; try lia.
      exists a, b. inversion D1 as [|? ? N1 D1']; subst.
      destruct (proj1 (D2 a)) as [[]|[Ha1 Ha2]]; [left; auto|]. destruct (proj1 (D2 b)) as [[]|[Hb1 Hb2]]; [right; left; auto|].
      split; [|auto]. intros C. subst b. apply N1. left. auto.
    + split; [discriminate|]. intros [a [b [N [Ha [Hb [Ia Ib]]]]]]. exfalso. apply Z.ltb_ge in L.
      assert (Ja : In a (distinct_as asns)) by (apply D2; auto). assert (Jb : In b (distinct_as asns)) by (apply D2; auto).
      destruct (distinct_as asns) as [|x [|y q]]; cbn [length] in L; try lia; [destruct Ja|].
      destruct Ja as [<-|[]]. destruct Jb as [<-|[]]. auto.
  - unfold ebgp_role_link. destruct (1 <? Z.of_nat (length (distinct_as asns))); auto.
  - intros role N. destruct role; [congruence|]. reflexivity.
Qed.

Example ebgp_role_case : ebgp_role_link None [Some 65000; None; Some 65001] "external" = Some "external"%string
  /\ ebgp_role_link None [Some 65000; Some 65000] "external" = None.
Proof. split; reflexivity. Qed.

(* IBGP sessions use the addresses of the loopback interface of the neighbor. Daemons without a loopback interface are
   reached through their first interface, other nodes without a loopback interface have no IBGP sessions. *)
Theorem ibgp_addresses : forall lab a na x nb, NoDup (dkeys lab) ->
  In (None, x) (fst (build_bgp_sessions lab a na)) -> nb_type x = Ibgp -> dget (nb_name x) lab = Some nb ->
  exists af,
    (bn_loopback nb = Some af \/ (bn_loopback nb = None /\ bn_daemon nb = true /\ exists i r, bn_intfs nb = i :: r /\ af = bi_af i)) /\
    (In Ibgp (s_v4 (node_sessions na)) -> nb_v4 x = a_v4 af) /\ (In Ibgp (s_v6 (node_sessions na)) -> nb_v6 x = a_v6 af).
Proof.
  intros lab a na x nb ND H T D. apply build_bgp_In in H. destruct H as [[_ H]|H]; [|apply build_ebgp_type in H; contradiction].
  apply build_ibgp_In in H. destruct H as [k [n [H1 [_ H3]]]]. apply ibgp_neighbor_In in H3.
  destruct H3 as [E [_ [_ [_ [R [V4 V6]]]]]]. subst k. apply (dget_NoDup _ _ _ ND) in H1. assert (n = nb) by congruence. subst n.
  exists (get_remote_ibgp_endpoint nb). split.
  - unfold get_remote_ibgp_endpoint in *. destruct (bn_loopback nb) as [l|] eqn:L; [left; reflexivity|right].
    split; [reflexivity|].
    assert (X : get_remote_ibgp_endpoint nb <> no_afs).
    { intro C. unfold ibgp_reachable in R. rewrite C in R. destruct R as [[_ R]|[_ R]]; apply R; reflexivity. }
    unfold get_remote_ibgp_endpoint in X. rewrite L in X.
    destruct (bn_daemon nb); [|congruence]. destruct (bn_intfs nb) as [|i r] eqn:I; [congruence|]. split; [reflexivity|]. eauto.
  - split; intro M; apply mem_stype_In in M; [rewrite V4, M | rewrite V6, M]; reflexivity.
Qed.

Definition unnumbered4 (l : bintf) (ng : bngb) : Prop := a_v4 (bi_af l) = Some (ABool true) /\ a_v4 (ni_af ng) = Some (ABool true).

Lemma is_true_iff : forall o, is_true o = true <-> o = Some (ABool true).
Proof. intros [[[|]|s]|]; split; cbn; congruence. Qed.

Lemma ebgp_one_flags : forall lab na s l v6 ng v x, In (v, x) (snd (fst (ebgp_one lab na s l v6 ng))) ->
  (nb_rfc8950 x = true <-> unnumbered4 l ng) /\ (a_v4 (bi_af l) = Some (ABool true) -> a_v4 (ni_af ng) = Some (ABool true)) /\
  (nb_local_if x = true -> bf_ipv6_lla (bn_features na) = true) /\
  (nb_local_if x = false -> nb_rfc8950 x = true -> bf_rfc8950 (bn_features na) = true) /\
  (nb_local_if x = true -> unnumbered4 l ng \/ a_v6 (ni_af ng) = Some (ABool true)).
Proof.
  intros lab na s l v6 ng v x H. unfold ebgp_one in H. unfold unnumbered4. rewrite <- !is_true_iff.
  destruct (has_af (ni_af ng)); cbn [negb] in H; [|destruct H].
  destruct (dget (ni_node ng) lab) as [nb|]; [|destruct H].
  destruct (or_as (neighbor_local_as nb ng) None) as [nla|]; [|destruct H].
  destruct (opt_z_eqb (bn_as na) (bn_as nb) && opt_z_eqb (node_local_as na l) (Some nla)); [destruct H|].
  destruct (is_true (a_v4 (bi_af l)) && negb (is_true (a_v4 (bi_af l)) && is_true (a_v4 (ni_af ng)))) eqn:C1; [destruct H|].
  destruct (is_true v6 && negb (is_true v6 && is_true (a_v6 (ni_af ng)))); [destruct H|].
  match type of H with context [if ?b then (?u, [], [ErrNoLla _]) else _] => destruct b eqn:C2; [destruct H|] end.
  match type of H with context [if ?b then (?u, [], [ErrNoRfc8950 _]) else _] => destruct b eqn:C3; [destruct H|] end.
  match type of H with context [if ?b then (?u, [], [ErrLocalIbgp _]) else _] => destruct b; [destruct H|] end.
  destruct (bgp_neighbor _ _ _ _ _ _ _ _ _ _) as [y|] eqn:B; [|destruct H].
  apply bgp_neighbor_fields in B. destruct B as [_ [_ [_ [_ [_ [_ [_ [_ [B9 B10]]]]]]]]].
  assert (K : nb_local_if x = nb_local_if y /\ nb_rfc8950 x = nb_rfc8950 y).
  { destruct (bi_vrf l) as [w|]; cbn [fst snd] in H.
    - destruct (memS w (bn_vrf_off na)); [destruct H|]. destruct H as [K|[]]. injection K as <- <-. auto.
    - destruct H as [K|[]]. injection K as <- <-. auto. }
  destruct K as [-> ->]. rewrite B9, B10.
  destruct (is_true (a_v4 (bi_af l))), (is_true (a_v4 (ni_af ng))), (is_true v6), (is_true (a_v6 (ni_af ng))), (is_addr v6), (is_addr (a_v6 (ni_af ng))),
    (bf_ipv6_lla (bn_features na)), (bf_rfc8950 (bn_features na)); cbn in *; try discriminate; repeat split; auto; try tauto; try discriminate;
    try (intros [? ?]; discriminate).
Qed.

(* EBGP sessions exchange IPv4 prefixes over IPv6 sessions (RFC 8950) exactly when the interfaces of both nodes are
   unnumbered IPv4 interfaces; sessions over unnumbered interfaces are created on devices supporting them. *)
Theorem ebgp_unnumbered : forall lab a na v x,
  In (v, x) (fst (build_bgp_sessions lab a na)) -> nb_type x <> Ibgp ->
  exists l ng, In l (bn_intfs na) /\ In ng (bi_ngbs l) /\ v = bi_vrf l /\ nb_name x = ni_node ng /\ nb_ifindex x = Some (bi_ifindex l) /\
    (nb_rfc8950 x = true <-> unnumbered4 l ng) /\ (a_v4 (bi_af l) = Some (ABool true) -> a_v4 (ni_af ng) = Some (ABool true)) /\
    (nb_local_if x = true -> bf_ipv6_lla (bn_features na) = true) /\
    (nb_local_if x = false -> nb_rfc8950 x = true -> bf_rfc8950 (bn_features na) = true) /\
    (nb_local_if x = true -> unnumbered4 l ng \/ a_v6 (ni_af ng) = Some (ABool true)).
Proof.
  intros lab a na v x H T. apply build_bgp_In in H. destruct H as [[_ H]|H].
  - apply build_ibgp_In in H. destruct H as [k [n [_ [_ H]]]]. apply ibgp_neighbor_In in H. tauto.
  - apply build_ebgp_In in H. destruct H as [l [Hl H]]. unfold ebgp_intf in H.
    destruct (bi_bgp_off l); [destruct H|]. destruct (has_af (bi_af l)); cbn [negb] in H; [|destruct H].
    match type of H with context [if ?b then ([], [ErrLocalAs _]) else _] => destruct b; [destruct H|] end.
    match type of H with context [if ?b then ([], [ErrVrfLocalAs _]) else _] => destruct b; [destruct H|] end.
    apply ebgp_ngbs_In in H. destruct H as [ng [v6 [Hn H]]]. exists l, ng. split; [auto|]. split; [auto|].
    pose proof (ebgp_one_flags _ _ _ _ _ _ _ _ H) as F. apply ebgp_one_sound in H. destruct H as [nb [_ [_ [F1 [F2 [F3 _]]]]]]. auto.
Qed.

(* A local AS on devices without support for it is reported. *)
Theorem local_as_unsupported : forall lab a na l asn,
  In l (bn_intfs na) -> bi_bgp_off l = false -> has_af (bi_af l) = true ->
  node_local_as na l = Some asn -> bn_as na <> Some asn ->
  (bf_local_as (bn_features na) = false -> In (ErrLocalAs (bi_ifindex l)) (snd (build_bgp_sessions lab a na))) /\
  (bf_local_as (bn_features na) = true -> bf_vrf_local_as (bn_features na) = false -> (exists c r, bi_vrf l = Some (String c r)) ->
   In (ErrVrfLocalAs (bi_ifindex l)) (snd (build_bgp_sessions lab a na))).
Proof.
  intros lab a na l asn Hl O A L N.
  assert (U : forall e, In e (snd (ebgp_intf lab na (node_sessions na) l)) -> In e (snd (build_bgp_sessions lab a na))).
  { intros e He. unfold build_bgp_sessions.
    assert (G : forall ls, In l ls -> In e (snd (build_ebgp_sessions lab na (node_sessions na) ls))).
    { induction ls as [|m ls IH]; intros I; [destruct I|]. cbn [build_ebgp_sessions].
      destruct (ebgp_intf lab na (node_sessions na) m) as [y e1] eqn:E. destruct (build_ebgp_sessions lab na (node_sessions na) ls) as [z e2].
      cbn [snd] in *. apply in_or_app. destruct I as [->|I]; auto. rewrite E in He. auto. }
    specialize (G _ Hl). destruct (build_ebgp_sessions lab na (node_sessions na) (bn_intfs na)). exact G. }
  assert (E : opt_z_eqb (bn_as na) (node_local_as na l) = false) by (apply opt_z_eqb_neq; congruence).
  split.
  - intros F. apply U. unfold ebgp_intf. rewrite O, A, E, F. left. reflexivity.
  - intros F V [c [r W]]. apply U. unfold ebgp_intf. rewrite O, A, E, F, V, W. left. reflexivity.
Qed.

Example bgp_flags_case :
  let un := mk_afs (Some (ABool true)) (Some (ABool true)) in
  let na := lab_node 65000 None None [eb_intf None un false [mk_bngb "b" false None un]] in
  exists x, fst (build_bgp_sessions [("a", na); ("b", lab_node 65001 None None [])]%string "a" na) = [(None, x)] /\ nb_rfc8950 x = true /\ nb_local_if x = true.
Proof. eexists. split; [reflexivity|]. split; reflexivity. Qed.

Print Assumptions ibgp_sessions_exact.
Print Assumptions ibgp_neighbor_data.
Print Assumptions ibgp_no_self.
Print Assumptions ibgp_listed_once.
Print Assumptions ibgp_symmetric.
Print Assumptions ibgp_full_mesh.
Print Assumptions ibgp_route_reflectors.
Print Assumptions ibgp_symmetric_refuted.
Print Assumptions ebgp_sessions_sound.
Print Assumptions ebgp_sessions_complete.
Print Assumptions ebgp_session_iff.
Print Assumptions ebgp_symmetric.
Print Assumptions ebgp_disabled_one_side_refuted.
Print Assumptions ebgp_af_symmetric_refuted.
Print Assumptions unnumbered_two_neighbors_refuted.
Print Assumptions as_list_applied.
Print Assumptions rr_cluster_shared.
Print Assumptions rr_cluster_kept.
Print Assumptions rr_cluster_lowest_refuted.
Print Assumptions af_activated.
Print Assumptions af_flag_spec.
Print Assumptions activate_localas_refuted.
Print Assumptions ebgp_role_spec.
Print Assumptions ibgp_addresses.
Print Assumptions ebgp_unnumbered.
Print Assumptions local_as_unsupported.
