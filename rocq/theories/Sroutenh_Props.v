(* Static routes: usable results, origin, exact next hops, VRF checks, host routes and exceptions. *)
From Coq Require Import String Bool Arith Lia List.
From Verif Require Import Base Sroute_Model Sroute_Props Sroutegw_Props Sroutes_Props.
Import ListNotations.
Open Scope nat_scope.

Section Ip.
Variable ipif : string -> option (string * string).
Variable inside : string -> string -> option bool.

(* ---- routes created from the next-hop list ---- *)

Lemma number_nth : forall l k r f p j,
  nth_error (number k r f p l) j = option_map (fun h => one_route (r_vrf r) f p h (k + j)) (nth_error l j).
Proof.
  induction l as [|h l IH]; intros k r f p [|j]; simpl; auto.
  - rewrite Nat.add_0_r. destruct f; reflexivity.
  - rewrite IH. replace (S k + j) with (k + S j) by lia. reflexivity.
Qed.

Lemma nth_firstn : forall A (l : list A) m k, nth_error (firstn m l) k = if k <? m then nth_error l k else None.
Proof.
  induction l as [|x l IH]; intros m k.
  - rewrite firstn_nil. destruct k; destruct (_ <? _); reflexivity.
  - destruct m as [|m]; [destruct k; reflexivity|]. destruct k as [|k]; [reflexivity|].
    cbn [firstn nth_error]. rewrite IH. reflexivity.
Qed.

Definition via (nd : snode) (r : route) (f : af) (l : list nhe) : list route :=
  match aget f (r_addr r) with
  | None => []
  | Some p => number 0 r f p (firstn (max_hops nd) (filter (hop_has f) l))
  end.

Lemma via_spec : forall nd r f l, routes_via nd (r_vrf r) f (aget f (r_addr r)) l (via nd r f l).
Proof.
  intros nd r f l. unfold routes_via, via. destruct (aget f (r_addr r)) as [p|]; auto.
  intros k. rewrite number_nth, nth_firstn. destruct (k <? max_hops nd); reflexivity.
Qed.

Lemma expand_via : forall nd r l, expand_hops nd r l = via nd r V4 l ++ via nd r V6 l.
Proof. intros nd r l. unfold expand_hops, af_list. cbn [flat_map]. rewrite app_nil_r. reflexivity. Qed.

Lemma routes_via_filter : forall nd v f p l l' rs, filter (hop_has f) l = filter (hop_has f) l' ->
  routes_via nd v f p l rs -> routes_via nd v f p l' rs.
Proof. intros nd v f p l l' rs E H. destruct p; auto. intros k. simpl in H. rewrite H, E. reflexivity. Qed.

Lemma via_In : forall nd r f l q, In q (via nd r f l) ->
  exists p h k, aget f (r_addr r) = Some p /\ In h l /\ hop_has f h = true /\ k < max_hops nd /\ q = one_route (r_vrf r) f p h k.
Proof.
  intros nd r f l q H. unfold via in H. destruct (aget f (r_addr r)) as [p|] eqn:E; [|destruct H].
  apply In_nth_error in H. destruct H as [k H]. rewrite number_nth, nth_firstn in H.
  destruct (k <? max_hops nd) eqn:K; [|discriminate].
  destruct (nth_error (filter (hop_has f) l) k) as [h|] eqn:N; [|discriminate].
  simpl in H. inversion H; subst. apply nth_error_In in N. apply filter_In in N. apply Nat.ltb_lt in K.
  exists p, h, k. tauto.
Qed.

Lemma via_nonempty : forall nd r f l p h, aget f (r_addr r) = Some p -> In h l -> hop_has f h = true ->
  s_max nd <> Some 0 -> exists h' , In (one_route (r_vrf r) f p h' 0) (via nd r f l) /\ hop_has f h' = true.
Proof.
  intros nd r f l p h E H F M. unfold via. rewrite E.
  destruct (filter (hop_has f) l) as [|h' fl] eqn:L.
  - assert (K : In h (filter (hop_has f) l)) by (apply filter_In; auto). rewrite L in K. destruct K.
  - exists h'. unfold max_hops. destruct (s_max nd) as [[|m]|] eqn:S; [congruence| |];
      (split; [left; destruct f; reflexivity|]);
      (assert (K : In h' (filter (hop_has f) l)) by (rewrite L; left; auto); apply filter_In in K; tauto).
Qed.

Lemma uniq_filter : forall p l, filter p (uniq l) = uniq (filter p l).
Proof.
  intros p. induction l as [|x l IH]; simpl; auto.
  rewrite filter_filter. destruct (p x) eqn:P; simpl.
  - f_equal. rewrite <- IH, !filter_filter. apply filter_same. intros y _. apply andb_comm.
  - rewrite <- IH. apply filter_same. intros y _. unfold other. destruct (nhe_dec x y) as [->|N]; auto.
Qed.

Lemma missing_none : forall todo r x, missing_nh todo r x = None ->
  forall f, In f todo -> aget f (r_addr r) <> None -> aget f (x_addr x) <> None.
Proof.
  induction todo as [|g todo IH]; intros r x H f Hf N; simpl in H; [destruct Hf|].
  destruct Hf as [<-|Hf].
  - destruct (aget g (r_addr r)), (aget g (x_addr x)); congruence.
  - apply (IH r x); auto. destruct (aget g (r_addr r)), (aget g (x_addr x)); congruence.
Qed.

Lemma af_in : forall f, In f af_list.
Proof. intros [|]; simpl; auto. Qed.

Lemma first_addr_some : forall f l, first_addr f l <> None <-> exists h, In h l /\ hop_has f h = true.
Proof.
  intros f l. unfold first_addr. induction l as [|h l IH]; simpl.
  - split; [congruence|]. intros [h [[] _]].
  - unfold hop_has. destruct (aget f (h_addr h)) as [s|] eqn:E; simpl.
    + split; [|discriminate]. intros _. exists h. rewrite E. auto.
    + split.
      * intros K. apply IH in K. destruct K as [h' [A B]]. exists h'. auto.
      * intros [h' [[<-|A] B]]; [rewrite E in B; discriminate|]. apply IH. exists h'. auto.
Qed.

(* ---- every remaining route is usable ---- *)

Lemma no_err_first : forall nd first es, first_err nd first ++ es = [] -> es = [].
Proof. intros nd first es H. apply app_eq_nil in H. tauto. Qed.

Definition usable_route (q : route) : Prop :=
  exists x k, r_nh q = Some x /\ x_idx x = Some k /\ has_af (r_addr q) = true /\
    forall f p, aget f (r_addr q) = Some p -> exists d, aget f (x_addr x) = Some d.

Lemma check_usable : forall t nd first r ifs o, check_static_route ipif inside t nd first r ifs = Some o ->
  o_errs o = [] -> (r_skip r = true -> source t r = None) ->
  (forall q, In q (o_added o) -> usable_route q) /\
  (let q := if o_stored o then o_route o else r in r_remove q = false -> usable_route q).
Proof.
  intros t nd first r ifs o H E S. destruct (check_inv _ _ _ _ _ _ _ _ H) as [a [P [_ [c [C K]]]]].
  assert (SK : r_skip (with_addr r a) = true -> c = false).
  { intros Hs. specialize (S Hs). destruct c; auto. destruct (proj1 C eq_refl S). }
  inversion K; subst; cbn [o_errs o_added o_stored o_route] in *.
  - apply no_err_first in E. discriminate.
  - rewrite SK by auto. split; [intros q []|discriminate].
  - apply no_err_first in E. discriminate.
  - apply no_err_first in E. discriminate.
  - rewrite SK by auto. split; [intros q []|discriminate].
  - apply no_err_first in E. apply app_eq_nil in E. destruct E. discriminate.
  - split; [|discriminate]. rewrite expand_via. intros q Hq. apply in_app_iff in Hq.
    assert (U : forall f, In q (via nd (with_addr r a) f l) -> usable_route q).
    { intros f Hf. apply via_In in Hf. destruct Hf as [p [h [k [_ [_ [Hh [_ ->]]]]]]].
      unfold usable_route, one_route. simpl. eexists. exists k.
      split; [reflexivity|]. split; [reflexivity|]. split; [destruct f; reflexivity|].
      intros g p' G. unfold hop_has in Hh.
      destruct f, g; simpl in *; try discriminate.
      - destruct (a4 (h_addr h)); [|discriminate]. simpl. eauto.
      - destruct (a6 (h_addr h)); [|discriminate]. simpl. eauto. }
    destruct Hq; eauto.
  - split; [intros q []|]. intros _. unfold usable_route. simpl. eexists. exists 0.
    split; [reflexivity|]. split; [reflexivity|]. split; [assumption|].
    intros f p G. assert (M := missing_none _ _ _ H4 f (af_in f)). simpl in M.
    destruct (aget f (x_addr x')) as [d|] eqn:X; [|exfalso; apply M; [congruence|auto]].
    exists d. exact X.
Qed.

(* When the processing ends without an error, every static route left on the node has a numbered next hop with an
   address of every address family in which the route has a prefix. *)
Theorem static_routes_usable : forall t nd l ifs p, process_static ipif inside t nd l ifs = Some p -> p_errs p = [] ->
  (forall r, In r l -> r_skip r = true -> source t r = None) ->
  forall q, In q (p_routes p) -> r_remove q = false /\ usable_route q.
Proof.
  intros t nd l ifs p H E S q Hq.
  destruct (static_routes_independent ipif inside t nd l ifs) as [_ K]. destruct (K p H) as [outs [L [N [R [RE _]]]]].
  rewrite R in Hq. apply filter_In in Hq. destruct Hq as [Hq HR]. apply negb_true_iff in HR. split; auto.
  assert (NE : forall k o, nth_error outs k = Some o -> o_errs o = []).
  { intros k o Ho. apply nth_error_In in Ho. rewrite RE in E. destruct (o_errs o) as [|e es] eqn:Q; auto.
    assert (X : In e (flat_map o_errs outs)) by (apply in_flat_map; exists o; rewrite Q; split; auto; left; auto).
    rewrite E in X. destruct X. }
  assert (NO : forall k o, nth_error outs k = Some o -> exists r, nth_error l k = Some r /\
            check_static_route ipif inside t nd (k =? 0) r ifs = Some o).
  { intros k o Ho. destruct (nth_error l k) as [r|] eqn:Q.
    - destruct (N k r Q) as [o' [O1 O2]]. exists r. split; auto. congruence.
    - apply nth_error_None in Q. assert (X : nth_error outs k <> None) by congruence.
      apply nth_error_Some in X. lia. }
  apply in_app_iff in Hq. destruct Hq as [Hq|Hq].
  - apply in_map_iff in Hq. destruct Hq as [[r o] [Q1 Q2]]. simpl in Q1.
    apply In_nth_error in Q2. destruct Q2 as [k Q2].
    assert (Q3 : nth_error outs k = Some o /\ nth_error l k = Some r).
    { clear - Q2. revert l outs Q2. induction k as [|k IH]; intros [|x l] [|y outs] Q; simpl in *; try discriminate.
      - inversion Q; auto.
      - auto. }
    destruct Q3 as [Q3 Q4]. destruct (NO k o Q3) as [r' [Q5 Q6]].
    assert (r' = r) by congruence. subst r'.
    destruct (check_usable _ _ _ _ _ _ Q6 (NE k o Q3)) as [_ U].
    { apply S. eapply nth_error_In; eauto. }
    rewrite <- Q1 in *. apply U. exact HR.
  - apply in_flat_map in Hq. destruct Hq as [o [Q1 Q2]]. apply In_nth_error in Q1. destruct Q1 as [k Q1].
    destruct (NO k o Q1) as [r [Q3 Q4]]. destruct (check_usable _ _ _ _ _ _ Q4 (NE k o Q1)) as [U _]; auto.
    apply S. eapply nth_error_In; eauto.
Qed.

(* ---- exact next hops ---- *)

Lemma no_af_get : forall f, aget f (@no_af aval) = None.
Proof. intros [|]; reflexivity. Qed.

Lemma merge_empty : forall s x, x_addr x = no_af -> x_list x = None ->
  merge_nh s x = mk_nx (rs_addr s) (x_node x) (x_gw x) (x_vrf x) (rs_list s) (x_intf x) (x_idx x).
Proof.
  intros [[p q] l] x E L. unfold merge_nh. rewrite E, L. unfold amerge. simpl. reflexivity.
Qed.

Lemma err_cases : forall t nd first r a c ifs o x, checked ipif inside t nd (first_err nd first) (with_addr r a) c ifs o ->
  r_nh r = Some x -> r_skip r = false -> o_errs o = [] ->
  exists x' ifs' w, resolve_nexthop ipif inside t nd (with_addr r a) x ifs = Some (x', ifs', w, []) /\
    missing_nh af_list (with_addr r a) x' = None /\
    ((exists l, x_list x' = Some l /\
        o = mk_out (removed (with_nh (with_addr r a) x')) true (expand_hops nd (with_addr r a) l) ifs' w []) \/
     (x_list x' = None /\ o = mk_out (with_nh (with_addr r a) (with_idx x' 0)) true [] ifs' w [])).
Proof.
  intros t nd first r a c ifs o x K HN HS E.
  inversion K; subst; cbn [o_errs] in E;
    try (apply no_err_first in E; discriminate);
    try (simpl in *; congruence).
  - assert (E' := no_err_first _ _ _ E). apply app_eq_nil in E'. destruct E'. discriminate.
  - change (r_nh (with_addr r a)) with (r_nh r) in H0. assert (x0 = x) by congruence. subst x0.
    assert (E' := no_err_first _ _ _ E). subst es. rewrite E.
    exists x', ifs', w. split; auto. split; auto. left. exists l. auto.
  - change (r_nh (with_addr r a)) with (r_nh r) in H0. assert (x0 = x) by congruence. subst x0.
    assert (E' := no_err_first _ _ _ E). subst es. rewrite E.
    exists x', ifs', w. split; auto.
Qed.

(* The address taken from a control-plane endpoint: the host part of a text, other values unchanged *)
Definition host_val (v : option aval) : option aval :=
  match v with Some (AStr _) => opt_str (host_str ipif v) | _ => v end.

Lemma extract_host : forall d b, extract_af_info ipif false d = Some b -> forall f, aget f b = host_val (aget f d).
Proof.
  intros d b H f. unfold extract_af_info in H.
  destruct (extract_one ipif false (a4 d)) as [x|] eqn:E4; [|discriminate].
  destruct (extract_one ipif false (a6 d)) as [y|] eqn:E6; [|discriminate].
  inversion H; subst.
  assert (K : forall v w, extract_one ipif false v = Some w -> w = host_val v).
  { intros [[s|c]|] w E; simpl in *; try (inversion E; auto; fail).
    destruct (ipif s) as [[h n]|]; [|discriminate]. inversion E. reflexivity. }
  destruct f; simpl; auto.
Qed.

(* A route with a node as the next hop: a route for every address of the node on an interface in the VRF of the next
   hop, or one route with the addresses of the control-plane endpoint of the node *)
Theorem node_nexthops_exact : forall t nd first r ifs o x n a,
  check_static_route ipif inside t nd first r ifs = Some o -> route_prefixes ipif t r a ->
  r_nh r = Some x -> x_node x = Some n -> n <> ""%string -> x_addr x = no_af -> x_list x = None ->
  r_skip r = false -> o_errs o = [] ->
  o_stored o = true /\
  match uniq (node_all ipif n (nh_vrf r x) (x_vrf x) ifs) with
  | [] => is_neighbor n ifs = false /\ o_added o = [] /\ r_addr (o_route o) = a /\
          exists x', r_nh (o_route o) = Some x' /\ x_idx x' = Some 0 /\ x_list x' = None /\
            forall f, aget f (x_addr x') = host_val (aget f (get_remote_cp_endpoint t n))
  | hops => r_remove (o_route o) = true /\
      exists l4 l6, o_added o = l4 ++ l6 /\ routes_via nd (r_vrf r) V4 (a4 a) hops l4 /\
                    routes_via nd (r_vrf r) V6 (a6 a) hops l6
  end.
Proof.
  intros t nd first r ifs o x n a H P HN XN NE XA XL HS E.
  destruct (check_inv _ _ _ _ _ _ _ _ H) as [a' [P' [_ [c [_ K]]]]].
  assert (a' = a) by (eapply prefixes_fun; eauto). subst a'.
  destruct (err_cases _ _ _ _ _ _ _ _ _ K HN HS E) as [x' [ifs' [w [R [M O]]]]].
  unfold resolve_nexthop in R. rewrite XN in R. unfold truthy_name in R.
  apply String.eqb_neq in NE. rewrite NE in R. unfold resolve_node_nexthop in R.
  change (nh_vrf (with_addr r a) x) with (nh_vrf r x) in R.
  destruct (node_hops ipif n (nh_vrf r x) (x_vrf x) ifs ([], false)) as [[l fd]|] eqn:NH; [|discriminate].
  apply node_hops_closed in NH. destruct NH as [NH _]. inversion NH as [[NL NF]].
  rewrite fold_append_nil in NL. rewrite <- NL. clear NH.
  destruct l as [|h hs].
  - destruct (fd && negb (route_id_ok (with_addr r a))); [discriminate|].
    destruct (extract_af_info ipif false (get_remote_cp_endpoint t n)) as [b|] eqn:X; [|discriminate].
    assert (NB : is_neighbor n ifs = false) by (simpl in NF; destruct fd; [discriminate R|congruence]).
    rewrite merge_empty in R by auto. inversion R; subst. simpl in O.
    destruct O as [[l [C _]]|[_ ->]]; [discriminate|]. split; [reflexivity|]. split; [exact NB|].
    split; [reflexivity|]. split; [reflexivity|]. eexists. split; [reflexivity|]. split; [reflexivity|].
    split; [reflexivity|]. intros f. simpl. now apply extract_host.
  - rewrite merge_empty in R by auto. inversion R; subst. simpl in O.
    destruct O as [[l [C ->]]|[C _]]; [|discriminate]. inversion C; subst. split; [reflexivity|].
    split; [reflexivity|]. cbn [o_added]. rewrite expand_via.
    eexists. eexists. split; [reflexivity|].
    split; [apply (via_spec nd (with_addr r a) V4)|apply (via_spec nd (with_addr r a) V6)].
Qed.

(* ---- next hops given by address ---- *)

(* The directly connected next hops of one address family of the route *)
Definition direct_for (a : afd aval) (x : nexthop) (v : option string) (ifs : list sintf) (f : af) : list nhe :=
  match aget f a, str_of (aget f (x_addr x)) with
  | Some _, Some d => direct_all inside f d v (x_vrf x) ifs
  | _, _ => []
  end.

Lemma direct_all_af : forall f g d v xv ifs,
  filter (hop_has g) (direct_all inside f d v xv ifs) = if af_eqb f g then direct_all inside f d v xv ifs else [].
Proof.
  intros f g d v xv ifs. unfold direct_all. induction (filter (connected inside f d v) ifs) as [|i l IH]; simpl.
  - destruct (af_eqb f g); reflexivity.
  - rewrite IH. destruct f, g; reflexivity.
Qed.

Lemma direct_for_af : forall a x v ifs f g,
  filter (hop_has g) (direct_for a x v ifs f) = if af_eqb f g then direct_for a x v ifs f else [].
Proof.
  intros a x v ifs f g. unfold direct_for. destruct (aget f a), (str_of (aget f (x_addr x))); try (destruct (af_eqb f g); reflexivity).
  apply direct_all_af.
Qed.

Lemma direct_spec_split : forall r a x ifs,
  direct_spec inside (with_addr r a) x ifs = direct_for a x (nh_vrf r x) ifs V4 ++ direct_for a x (nh_vrf r x) ifs V6.
Proof. intros. unfold direct_spec, af_list. cbn [flat_map]. rewrite app_nil_r. reflexivity. Qed.

(* A route with an address as the next hop: a route for every interface in the VRF of the next hop whose subnet
   contains the address; without such interfaces, the route itself *)
Theorem address_nexthops_exact : forall t nd first r ifs o x a,
  check_static_route ipif inside t nd first r ifs = Some o -> route_prefixes ipif t r a ->
  r_nh r = Some x -> truthy_name (x_node x) = None -> x_gw x = false -> has_af (x_addr x) = true -> x_list x = None ->
  r_skip r = false -> o_errs o = [] ->
  let hops := direct_for a x (nh_vrf r x) ifs in
  o_stored o = true /\
  (hops V4 = [] -> hops V6 = [] -> o_added o = [] /\ r_addr (o_route o) = a /\ r_vrf (o_route o) = r_vrf r /\
     exists x', r_nh (o_route o) = Some x' /\ x_addr x' = x_addr x /\ x_vrf x' = x_vrf x /\ x_idx x' = Some 0
       /\ r_remove (o_route o) = r_remove r) /\
  (hops V4 <> [] \/ hops V6 <> [] -> r_remove (o_route o) = true /\
     exists l4 l6, o_added o = l4 ++ l6 /\ routes_via nd (r_vrf r) V4 (a4 a) (uniq (hops V4)) l4
                   /\ routes_via nd (r_vrf r) V6 (a6 a) (uniq (hops V6)) l6).
Proof.
  intros t nd first r ifs o x a H P HN XN XG XA XL HS E hops.
  destruct (check_inv _ _ _ _ _ _ _ _ H) as [a' [P' [_ [c [_ K]]]]].
  assert (a' = a) by (eapply prefixes_fun; eauto). subst a'.
  destruct (err_cases _ _ _ _ _ _ _ _ _ K HN HS E) as [x' [ifs' [w [R [M O]]]]].
  unfold resolve_nexthop in R. rewrite XN, XG, XA, XL in R.
  destruct (resolve_nexthop_intf ipif inside af_list (with_addr r a) x ifs []) as [l|] eqn:D; [|discriminate].
  apply resolve_intf_closed in D. destruct D as [D _]. rewrite fold_append_nil in D.
  fold (direct_spec inside (with_addr r a) x ifs) in D. rewrite direct_spec_split in D.
  fold hops in D. inversion R; subst x' ifs' w.
  assert (XL' : x_list (with_list x l) = match l with [] => None | _ => Some l end)
    by (unfold with_list; simpl; rewrite XL; destruct l; reflexivity).
  destruct O as [[l' [C ->]]|[C ->]].
  - split; [reflexivity|]. rewrite XL' in C. destruct l as [|h l0]; [discriminate|]. inversion C; subst l'.
    split.
    { intros E4 E6. rewrite E4, E6 in D. discriminate. }
    intros _. split; [reflexivity|]. cbn [o_added]. rewrite expand_via. rewrite D.
    eexists. eexists. split; [reflexivity|]. split.
    + apply (routes_via_filter nd (r_vrf r) V4 (a4 a) (uniq (hops V4 ++ hops V6))).
      * rewrite !uniq_filter, filter_app. unfold hops. rewrite !direct_for_af. simpl. now rewrite app_nil_r.
      * apply (via_spec nd (with_addr r a) V4).
    + apply (routes_via_filter nd (r_vrf r) V6 (a6 a) (uniq (hops V4 ++ hops V6))).
      * rewrite !uniq_filter, filter_app. unfold hops. rewrite !direct_for_af. reflexivity.
      * apply (via_spec nd (with_addr r a) V6).
  - split; [reflexivity|]. rewrite XL' in C. destruct l as [|h l0]; [|discriminate].
    symmetry in D. apply (proj1 (uniq_nil _)) in D. apply app_eq_nil in D. destruct D as [D4 D6].
    split; [|intros [X|X]; contradiction]. intros _ _. split; [reflexivity|]. split; [reflexivity|]. split; [reflexivity|].
    eexists. split; [reflexivity|]. repeat split; reflexivity.
Qed.

(* ---- next hops given by a gateway ---- *)

Lemma gateway_common : forall t nd first r ifs o x a,
  check_static_route ipif inside t nd first r ifs = Some o -> route_prefixes ipif t r a ->
  r_nh r = Some x -> truthy_name (x_node x) = None -> x_gw x = true -> x_addr x = no_af -> x_list x = None ->
  r_skip r = false -> o_errs o = [] ->
  gw_list ipif t (s_af nd) (nh_vrf r x) (x_vrf x) ifs <> [] /\ gw_fine ipif t (s_af nd) (nh_vrf r x) ifs /\
  let hops := uniq (gw_list ipif t (s_af nd) (nh_vrf r x) (x_vrf x) ifs) in
  o_stored o = true /\ r_remove (o_route o) = true /\
  (forall f, aget f a <> None -> exists h, In h hops /\ hop_has f h = true) /\
  o_added o = via nd (with_addr r a) V4 hops ++ via nd (with_addr r a) V6 hops.
Proof.
  intros t nd first r ifs o x a H P HN XN XG XA XL HS E.
  destruct (check_inv _ _ _ _ _ _ _ _ H) as [a' [P' [_ [c [_ K]]]]].
  assert (a' = a) by (eapply prefixes_fun; eauto). subst a'.
  assert (HAF : has_af a = true).
  { inversion K; subst; auto. cbn [o_errs] in E. apply no_err_first in E. discriminate. }
  destruct (err_cases _ _ _ _ _ _ _ _ _ K HN HS E) as [x' [ifs' [w [R [M O]]]]].
  destruct (resolve_gateway_some _ _ _ _ _ _ _ _ XN XG R) as [G Q].
  change (nh_vrf (with_addr r a) x) with (nh_vrf r x) in *.
  destruct (gw_list ipif t (s_af nd) (nh_vrf r x) (x_vrf x) ifs) as [|h hs] eqn:L.
  - inversion Q; subst. exfalso. assert (M' := missing_none _ _ _ M).
    assert (N : forall f, aget f a = None).
    { intros f. destruct (aget f a) eqn:A; auto. exfalso. apply (M' f (af_in f)).
      - simpl. congruence.
      - rewrite XA. apply no_af_get. }
    assert (N4 := N V4). assert (N6 := N V6). simpl in *. unfold has_af in HAF. rewrite N4, N6 in HAF. discriminate.
  - rewrite merge_empty in Q by auto. inversion Q; subst. split; [discriminate|]. split; auto.
    cbn zeta. set (hops := uniq (h :: hs)) in *.
    destruct O as [[l [C ->]]|[C _]]; [|discriminate]. simpl in C. inversion C; subst l.
    split; [reflexivity|]. split; [reflexivity|]. split.
    + intros f F. assert (M' := missing_none _ _ _ M f (af_in f) F). apply first_addr_some.
      intros Z. apply M'. destruct f; exact Z.
    + cbn [o_added]. apply expand_via.
Qed.

(* A route through the gateways configured on the interfaces in the VRF of the next hop (the interface gateway, or
   the gateway of the first neighbor having one): a route for every gateway address *)
Theorem gateway_nexthops_exact : forall t nd first r ifs o x a,
  check_static_route ipif inside t nd first r ifs = Some o -> route_prefixes ipif t r a ->
  r_nh r = Some x -> truthy_name (x_node x) = None -> x_gw x = true -> x_addr x = no_af -> x_list x = None ->
  r_skip r = false -> o_errs o = [] ->
  let hops := conf_hops ipif (nh_vrf r x) (x_vrf x) ifs in
  hops <> [] ->
  o_stored o = true /\ r_remove (o_route o) = true /\
  exists l4 l6, o_added o = l4 ++ l6 /\ routes_via nd (r_vrf r) V4 (a4 a) (uniq hops) l4
                /\ routes_via nd (r_vrf r) V6 (a6 a) (uniq hops) l6.
Proof.
  intros t nd first r ifs o x a H P HN XN XG XA XL HS E hops NE.
  destruct (gateway_common t nd first r ifs o x a H P HN XN XG XA XL HS E) as [_ [_ [S [D [_ A]]]]].
  assert (GL : gw_list ipif t (s_af nd) (nh_vrf r x) (x_vrf x) ifs = hops).
  { unfold gw_list. fold hops. destruct hops; [contradiction|reflexivity]. }
  rewrite GL in A. split; auto. split; auto. exists (via nd (with_addr r a) V4 (uniq hops)), (via nd (with_addr r a) V6 (uniq hops)).
  split; auto. split; [apply (via_spec nd (with_addr r a) V4)|apply (via_spec nd (with_addr r a) V6)].
Qed.

(* the interface that provides the gateway of last resort of an address family *)
Definition candidate (t : stopo) (v : option string) (f : af) (i : sintf) : bool :=
  in_vrf v i && negb (gw_true (conf_gw i)) && match last_gw t f i with Some _ => true | None => false end.

Lemma str_host : forall s, good_val ipif (Some (AStr s)) -> exists h, host_str ipif (Some (AStr s)) = Some h.
Proof. intros s G. simpl in *. destruct (ipif s) as [[h n]|]; [eauto|congruence]. Qed.

Lemma conf_nil_hop : forall v xv i ifs, conf_hops ipif v xv (i :: ifs) = [] -> in_vrf v i = true ->
  hop_of ipif i xv (conf_addr i) = [] /\ conf_hops ipif v xv ifs = [].
Proof.
  intros v xv i ifs H V. unfold conf_hops in *. simpl in H. rewrite V in H. simpl in H. now apply app_eq_nil in H.
Qed.

Lemma last_by_af : forall t v xv f ifs m, last_ok ipif t v m ifs -> conf_hops ipif v xv ifs = [] ->
  match (if memA f m then find (candidate t v f) ifs else None) with
  | Some i => exists s h e, last_gw t f i = Some s /\ host_str ipif (Some (AStr s)) = Some h /\
      filter (hop_has f) (last_hops ipif t v xv m ifs) = [e] /\ aget f (h_addr e) = Some h /\ h_intf e = i_name i /\ h_vrf e = xv
  | None => filter (hop_has f) (last_hops ipif t v xv m ifs) = []
  end.
Proof.
  intros t v xv f. induction ifs as [|i ifs IH]; intros m L C; simpl in *.
  - destruct (memA f m); reflexivity.
  - unfold candidate at 1. destruct (in_vrf v i) eqn:V; simpl.
    + destruct (conf_nil_hop _ _ _ _ C V) as [C0 C1].
      destruct (gw_true (conf_gw i)) eqn:T; simpl; destruct L as [L0 L].
      * rewrite C0. simpl. apply IH; auto.
      * specialize (IH (still t m i) L C1). rewrite filter_app.
        assert (ST : memA f (still t m i) = memA f m && match last_gw t f i with Some _ => false | None => true end).
        { destruct (memA f (still t m i)) eqn:Q.
          - apply memA_In in Q. unfold still in Q. apply filter_In in Q. destruct Q as [Q1 Q2].
            apply memA_In in Q1. rewrite Q1, Q2. reflexivity.
          - destruct (memA f m && match last_gw t f i with Some _ => false | None => true end) eqn:Q2; auto.
            apply andb_true_iff in Q2. destruct Q2 as [Q2 Q3].
            assert (X : memA f (still t m i) = true) by (apply memA_In; apply filter_In; split; auto; now apply memA_In).
            congruence. }
        rewrite ST in IH.
        assert (AG : aget f (last_addr t m i) = if memA f m then opt_str (last_gw t f i) else None) by (destruct f; reflexivity).
        assert (GV : good_val ipif (aget f (last_addr t m i))) by (destruct L0; destruct f; auto).
        assert (HG : aget f (host_af ipif (last_addr t m i)) = host_str ipif (aget f (last_addr t m i))) by (destruct f; reflexivity).
        destruct (memA f m) eqn:MF; simpl in *.
        { destruct (last_gw t f i) as [s|] eqn:LG; simpl in *.
          - rewrite AG in GV, HG. destruct (str_host s GV) as [h Hh]. rewrite Hh in HG.
            exists s, h. unfold hop_of.
            assert (HA : has_af (host_af ipif (last_addr t m i)) = true).
            { destruct (host_af ipif (last_addr t m i)) as [u w]. destruct f; simpl in HG; subst; unfold has_af; simpl; [|destruct u]; reflexivity. }
            rewrite HA. simpl. unfold hop_has at 1. simpl. rewrite HG. rewrite IH.
            eexists. split; [exact LG|]. split; [exact Hh|]. split; [reflexivity|]. auto.
          - assert (Z : filter (hop_has f) (hop_of ipif i xv (last_addr t m i)) = []).
            { unfold hop_of. destruct (has_af (host_af ipif (last_addr t m i))); auto. simpl. unfold hop_has. simpl.
              rewrite HG, AG. reflexivity. }
            rewrite Z. simpl. exact IH. }
        { assert (Z : filter (hop_has f) (hop_of ipif i xv (last_addr t m i)) = []).
          { unfold hop_of. destruct (has_af (host_af ipif (last_addr t m i))); auto. simpl. unfold hop_has. simpl.
            rewrite HG, AG. reflexivity. }
          rewrite Z. simpl. exact IH. }
    + apply IH; auto. unfold conf_hops in *. simpl in C. now rewrite V in C.
Qed.

(* Without configured gateways, the gateway of last resort: for every address family of the node, the first interface
   in the VRF of the next hop having a neighbor that is not a host and has an address not set by DHCP, and the first
   such neighbor; exactly one route for every prefix *)
Theorem last_resort_exact : forall t nd first r ifs o x a,
  check_static_route ipif inside t nd first r ifs = Some o -> route_prefixes ipif t r a ->
  r_nh r = Some x -> truthy_name (x_node x) = None -> x_gw x = true -> x_addr x = no_af -> x_list x = None ->
  r_skip r = false -> o_errs o = [] -> s_max nd <> Some 0 ->
  conf_hops ipif (nh_vrf r x) (x_vrf x) ifs = [] ->
  o_stored o = true /\ r_remove (o_route o) = true /\
  exists l4 l6, o_added o = l4 ++ l6 /\
    forall f, let l := match f with V4 => l4 | V6 => l6 end in
      match aget f a with
      | None => l = []
      | Some p => In f (s_af nd) /\ exists i s h e,
          find (candidate t (nh_vrf r x) f) ifs = Some i /\ last_gw t f i = Some s /\
          host_str ipif (Some (AStr s)) = Some h /\ aget f (h_addr e) = Some h /\ h_intf e = i_name i /\
          h_vrf e = x_vrf x /\ l = [one_route (r_vrf r) f p e 0]
      end.
Proof.
  intros t nd first r ifs o x a H P HN XN XG XA XL HS E MX CN.
  destruct (gateway_common t nd first r ifs o x a H P HN XN XG XA XL HS E) as [_ [[_ G] [S [D [F A]]]]].
  assert (GL : gw_list ipif t (s_af nd) (nh_vrf r x) (x_vrf x) ifs = last_hops ipif t (nh_vrf r x) (x_vrf x) (s_af nd) ifs).
  { unfold gw_list. now rewrite CN. }
  rewrite GL in *. split; auto. split; auto.
  specialize (G (conf_nil_xv ipif _ (x_vrf x) None ifs CN)).
  eexists. eexists. split; [exact A|].
  assert (K : forall f, match aget f a with
      | None => via nd (with_addr r a) f (uniq (last_hops ipif t (nh_vrf r x) (x_vrf x) (s_af nd) ifs)) = []
      | Some p => In f (s_af nd) /\ exists i s h e,
          find (candidate t (nh_vrf r x) f) ifs = Some i /\ last_gw t f i = Some s /\
          host_str ipif (Some (AStr s)) = Some h /\ aget f (h_addr e) = Some h /\ h_intf e = i_name i /\
          h_vrf e = x_vrf x /\
          via nd (with_addr r a) f (uniq (last_hops ipif t (nh_vrf r x) (x_vrf x) (s_af nd) ifs)) = [one_route (r_vrf r) f p e 0]
      end).
  { intros f. destruct (aget f a) as [p|] eqn:Fa.
    - destruct (F f) as [h0 [I0 H0]]; [congruence|]. apply (proj1 (uniq_In _ _)) in I0.
      assert (Q := last_by_af t (nh_vrf r x) (x_vrf x) f ifs (s_af nd) G CN).
      assert (NN : filter (hop_has f) (last_hops ipif t (nh_vrf r x) (x_vrf x) (s_af nd) ifs) <> []).
      { intros Z. assert (Y : In h0 (filter (hop_has f) (last_hops ipif t (nh_vrf r x) (x_vrf x) (s_af nd) ifs)))
          by (apply filter_In; auto). rewrite Z in Y. destruct Y. }
      destruct (memA f (s_af nd)) eqn:MF; [|contradiction].
      apply memA_In in MF. split; auto.
      destruct (find (candidate t (nh_vrf r x) f) ifs) as [i|]; [|contradiction].
      destruct Q as [s [h [e [Q1 [Q2 [Q3 [Q4 [Q5 Q6]]]]]]]]. exists i, s, h, e.
      split; auto. split; auto. split; auto. split; auto. split; auto. split; auto.
      unfold via. simpl r_addr. rewrite Fa, uniq_filter, Q3. cbn [uniq filter].
      unfold max_hops. destruct (s_max nd) as [[|mm]|]; [congruence|cbn [firstn]; rewrite firstn_nil|]; destruct f; reflexivity.
    - unfold via. simpl r_addr. rewrite Fa. reflexivity. }
  intros f. specialize (K f). destruct f; exact K.
Qed.
End Ip.
