(* Static routes: routes that are kept or lost, origin of the routes, VRF checks, host routes, exceptions. *)
From Coq Require Import String Bool Arith Lia List.
From Verif Require Import Base Sroute_Model Sroute_Props Sroutegw_Props Sroutes_Props Sroutenh_Props.
Import ListNotations.
Open Scope nat_scope.

Section Ip.
Variable ipif : string -> option (string * string).
Variable inside : string -> string -> option bool.

(* ---- routes are kept ---- *)

(* The directly connected address next hops cover all the families of the route or none *)
Definition balanced (a : afd aval) (x : nexthop) (v : option string) (ifs : list sintf) : Prop :=
  forall f g, aget f a <> None -> aget g a <> None ->
    direct_for inside a x v ifs f <> [] -> direct_for inside a x v ifs g <> [].

Definition has_route (l : list route) (v : option string) (f : af) (p : aval) : Prop :=
  exists q x d, In q l /\ r_remove q = false /\ r_vrf q = v /\ aget f (r_addr q) = Some p /\
    r_nh q = Some x /\ aget f (x_addr x) = Some d.

Lemma one_has : forall l v f p h k, In (one_route v f p h k) l -> hop_has f h = true -> has_route l v f p.
Proof.
  intros l v f p h k H Hh. unfold hop_has in Hh. destruct (aget f (h_addr h)) as [s|] eqn:E; [|discriminate].
  exists (one_route v f p h k). eexists. exists (AStr s). split; auto. split; [reflexivity|]. split; [reflexivity|].
  split; [destruct f; reflexivity|]. split; [reflexivity|].
  destruct f; simpl in *; rewrite E; reflexivity.
Qed.

Lemma via_has : forall nd r a f l p h l', aget f a = Some p -> In h l -> hop_has f h = true -> s_max nd <> Some 0 ->
  (forall q, In q (via nd (with_addr r a) f l) -> In q l') -> has_route l' (r_vrf r) f p.
Proof.
  intros nd r a f l p h l' E H Hh M S.
  destruct (via_nonempty nd (with_addr r a) f l p h E H Hh M) as [h' [A B]].
  eapply one_has; [apply S; exact A|exact B].
Qed.

Lemma via_both : forall nd r f l q, In q (via nd r f l) -> In q (via nd r V4 l ++ via nd r V6 l).
Proof. intros nd r f l q H. apply in_app_iff. destruct f; auto. Qed.

Lemma check_kept : forall t nd first r ifs o x a f p,
  check_static_route ipif inside t nd first r ifs = Some o -> route_prefixes ipif t r a ->
  r_nh r = Some x -> x_list x = None -> r_skip r = false -> r_remove r = false -> o_errs o = [] -> s_max nd <> Some 0 ->
  (truthy_name (x_node x) <> None \/ x_gw x = true -> x_addr x = no_af) ->
  (truthy_name (x_node x) = None -> x_gw x = false -> balanced a x (nh_vrf r x) ifs) ->
  aget f a = Some p ->
  has_route ((if o_stored o then o_route o else r) :: o_added o) (r_vrf r) f p.
Proof.
  intros t nd first r ifs o x a f p H P HN XL HS HR E MX CA CB F.
  destruct (check_inv _ _ _ _ _ _ _ _ H) as [a' [P' [_ [c [_ K]]]]].
  assert (a' = a) by (eapply prefixes_fun; eauto). subst a'.
  destruct (err_cases _ _ _ _ _ _ _ _ _ _ _ K HN HS E) as [x' [ifs' [w [R [M O]]]]].
  assert (MF : aget f (x_addr x') <> None).
  { apply (missing_none _ _ _ M f (af_in f)). change (aget f a <> None). congruence. }
  destruct O as [[l [C ->]]|[C ->]]; cbn [o_stored o_route o_added].
  - assert (HH : exists h, In h l /\ hop_has f h = true).
    { destruct (truthy_name (x_node x)) as [n|] eqn:XN.
      - assert (XA : x_addr x = no_af) by (apply CA; left; discriminate).
        unfold resolve_nexthop in R. rewrite XN in R.
        destruct (resolve_node_nexthop ipif t (with_addr r a) x n ifs) as [[s e]|] eqn:RN; [|discriminate].
        rewrite merge_empty in R by auto. injection R as R1 _ _ _. subst x'. simpl in C, MF.
        unfold resolve_node_nexthop in RN.
        destruct (node_hops ipif n (nh_vrf (with_addr r a) x) (x_vrf x) ifs ([], false)) as [[l0 fd]|]; [|discriminate].
        destruct l0 as [|h0 hs].
        + destruct (fd && negb (route_id_ok (with_addr r a))); [discriminate|].
          destruct (extract_af_info ipif false (get_remote_cp_endpoint t n)); [|discriminate].
          inversion RN; subst. discriminate.
        + inversion RN; subst. simpl in C. inversion C; subst l. apply first_addr_some. intros Z. apply MF. destruct f; exact Z.
      - destruct (x_gw x) eqn:XG.
        + assert (XA : x_addr x = no_af) by (apply CA; auto).
          destruct (resolve_gateway_some _ _ _ _ _ _ _ _ XN XG R) as [_ Q].
          destruct (gw_list ipif t (s_af nd) (nh_vrf (with_addr r a) x) (x_vrf x) ifs) as [|h0 hs].
          * injection Q as Q1 _ _. subst x'. congruence.
          * rewrite merge_empty in Q by auto. injection Q as Q1 _ _. subst x'. simpl in C. inversion C; subst l.
            apply first_addr_some. intros Z. apply MF. destruct f; exact Z.
        + specialize (CB eq_refl eq_refl). unfold resolve_nexthop in R. rewrite XN, XG, XL in R.
          destruct (has_af (x_addr x)); [|inversion R; subst; congruence].
          destruct (resolve_nexthop_intf ipif inside af_list (with_addr r a) x ifs []) as [l0|] eqn:D; [|discriminate].
          apply resolve_intf_closed in D. destruct D as [D _]. rewrite fold_append_nil in D.
          fold (direct_spec inside (with_addr r a) x ifs) in D. rewrite direct_spec_split in D.
          inversion R; subst x' ifs' w. unfold with_list in C. simpl in C.
          destruct l0 as [|h0 hs]; [congruence|]. inversion C; subst l. rewrite D.
          assert (ND : direct_for inside a x (nh_vrf r x) ifs f <> []).
          { assert (I0 : In h0 (uniq (direct_for inside a x (nh_vrf r x) ifs V4 ++ direct_for inside a x (nh_vrf r x) ifs V6)))
              by (rewrite <- D; left; auto).
            apply (proj1 (uniq_In _ _)) in I0. apply in_app_iff in I0.
            assert (G : exists g, In h0 (direct_for inside a x (nh_vrf r x) ifs g)) by (destruct I0; eauto).
            destruct G as [g G]. apply (CB g f); [|congruence|].
            - unfold direct_for in G. destruct (aget g a); [discriminate|destruct G].
            - intros Z. rewrite Z in G. destruct G. }
          assert (FA := direct_for_af inside a x (nh_vrf r x) ifs f f).
          assert (ff : af_eqb f f = true) by (destruct f; reflexivity). rewrite ff in FA.
          destruct (direct_for inside a x (nh_vrf r x) ifs f) as [|h1 hs1] eqn:DF; [congruence|].
          exists h1. split.
          * apply uniq_In. apply in_app_iff. destruct f; [left|right]; rewrite DF; left; auto.
          * assert (I1 : In h1 (filter (hop_has f) (h1 :: hs1))) by (rewrite FA; left; auto).
            apply filter_In in I1. tauto. }
    destruct HH as [h [Hl Hh]].
    apply (via_has nd r a f l p h); auto. intros q Hq. right. rewrite expand_via. eapply via_both; eauto.
  - destruct (aget f (x_addr x')) as [d|] eqn:X; [|congruence].
    exists (with_nh (with_addr r a) (with_idx x' 0)). eexists. exists d.
    split; [left; reflexivity|]. repeat split; auto.
Qed.

Lemma combine_nth : forall A B (l : list A) (m : list B) k x y,
  nth_error l k = Some x -> nth_error m k = Some y -> nth_error (combine l m) k = Some (x, y).
Proof.
  intros A B. induction l as [|a l IH]; intros [|b m] [|k] x y H1 H2; simpl in *; try discriminate.
  - inversion H1; inversion H2; reflexivity.
  - auto.
Qed.

(* Every prefix of a static route stays on the node in the VRF of the route with a next hop of its family, when the
   processing ends without an error and the directly connected address next hops cover all families of the route or
   none of them. *)
Theorem static_routes_kept : forall t nd l ifs p r x a f v,
  process_static ipif inside t nd l ifs = Some p -> p_errs p = [] -> s_max nd <> Some 0 ->
  In r l -> route_prefixes ipif t r a -> r_nh r = Some x -> x_list x = None -> r_skip r = false -> r_remove r = false ->
  (truthy_name (x_node x) <> None \/ x_gw x = true -> x_addr x = no_af) ->
  (truthy_name (x_node x) = None -> x_gw x = false -> balanced a x (nh_vrf r x) ifs) ->
  aget f a = Some v -> has_route (p_routes p) (r_vrf r) f v.
Proof.
  intros t nd l ifs p r x a f v H E MX HI P HN XL HS HR CA CB F.
  destruct (static_routes_independent ipif inside t nd l ifs) as [_ K]. destruct (K p H) as [outs [L [N [R [RE _]]]]].
  apply In_nth_error in HI. destruct HI as [k HI]. destruct (N k r HI) as [o [O1 O2]].
  assert (EO : o_errs o = []).
  { destruct (o_errs o) as [|e es] eqn:Q; auto. rewrite RE in E.
    assert (X : In e (flat_map o_errs outs)) by (apply in_flat_map; exists o; split; [eapply nth_error_In; eauto|rewrite Q; left; auto]).
    rewrite E in X. destruct X. }
  destruct (check_kept _ _ _ _ _ _ _ _ _ _ O2 P HN XL HS HR EO MX CA CB F) as [q [x' [d [Q1 [Q2 Q3]]]]].
  exists q, x', d. split; auto. rewrite R. apply filter_In. rewrite Q2. split; auto. apply in_app_iff.
  destruct Q1 as [Q1|Q1].
  - left. apply in_map_iff. exists (r, o). split; [exact Q1|]. eapply nth_error_In. eapply combine_nth; eauto.
  - right. apply in_flat_map. exists o. split; auto. eapply nth_error_In; eauto.
Qed.

(* ---- origin ---- *)

Lemma check_origin : forall t nd first r ifs o, check_static_route ipif inside t nd first r ifs = Some o ->
  o_errs o = [] -> (r_skip r = true -> source t r = None) ->
  exists a, route_prefixes ipif t r a /\
  forall q, In q ((if o_stored o then o_route o else r) :: o_added o) ->
    r_vrf q = r_vrf r /\ forall f v, aget f (r_addr q) = Some v -> aget f a = Some v.
Proof.
  intros t nd first r ifs o H E S. destruct (check_inv _ _ _ _ _ _ _ _ H) as [a [P [_ [c [C K]]]]].
  exists a. split; auto.
  assert (SK : r_skip (with_addr r a) = true -> c = false).
  { intros Hs. specialize (S Hs). destruct c; auto. destruct (proj1 C eq_refl S). }
  inversion K; subst; cbn [o_errs o_added o_stored o_route] in *; try (apply no_err_first in E; discriminate).
  - rewrite SK by auto. intros q [<-|[]]. split; auto.
  - rewrite SK by auto. intros q [<-|[]]. split; auto.
  - apply no_err_first in E. apply app_eq_nil in E. destruct E. discriminate.
  - intros q [<-|Hq]; [split; auto|]. rewrite expand_via in Hq. apply in_app_iff in Hq.
    assert (Q : exists f, In q (via nd (with_addr r a) f l)) by (destruct Hq; eauto). destruct Q as [f Q].
    apply via_In in Q. destruct Q as [p [h [k [Q1 [_ [_ [_ ->]]]]]]]. split; [reflexivity|].
    intros g v G. destruct f, g; simpl in *; congruence.
  - intros q [<-|[]]. split; auto.
Qed.

(* Every static route of the node comes from a configured route: the same VRF and prefixes of that route *)
Theorem static_routes_origin : forall t nd l ifs p q, process_static ipif inside t nd l ifs = Some p -> p_errs p = [] ->
  (forall r, In r l -> r_skip r = true -> source t r = None) -> In q (p_routes p) ->
  exists r a, In r l /\ route_prefixes ipif t r a /\ r_vrf q = r_vrf r /\
    forall f v, aget f (r_addr q) = Some v -> aget f a = Some v.
Proof.
  intros t nd l ifs p q H E S Hq.
  destruct (static_routes_independent ipif inside t nd l ifs) as [_ K]. destruct (K p H) as [outs [L [N [R [RE _]]]]].
  rewrite R in Hq. apply filter_In in Hq. destruct Hq as [Hq _].
  assert (X : exists k r o, nth_error l k = Some r /\ nth_error outs k = Some o /\
              In q ((if o_stored o then o_route o else r) :: o_added o)).
  { apply in_app_iff in Hq. destruct Hq as [Hq|Hq].
    - apply in_map_iff in Hq. destruct Hq as [[r o] [Q1 Q2]]. apply In_nth_error in Q2. destruct Q2 as [k Q2].
      exists k, r, o. assert (Q3 : nth_error outs k = Some o /\ nth_error l k = Some r).
      { clear - Q2. revert l outs Q2. induction k as [|k IH]; intros [|x l] [|y outs] Q; simpl in *; try discriminate.
        - inversion Q; auto.
        - auto. }
      destruct Q3. split; auto. split; auto. left. exact Q1.
    - apply in_flat_map in Hq. destruct Hq as [o [Q1 Q2]]. apply In_nth_error in Q1. destruct Q1 as [k Q1].
      destruct (nth_error l k) as [r|] eqn:Q.
      + exists k, r, o. split; auto. split; auto. right. exact Q2.
      + apply nth_error_None in Q. assert (Y : nth_error outs k <> None) by congruence. apply nth_error_Some in Y. lia. }
  destruct X as [k [r [o [X1 [X2 X3]]]]]. destruct (N k r X1) as [o' [O1 O2]].
  assert (o' = o) by congruence. subst o'.
  assert (EO : o_errs o = []).
  { destruct (o_errs o) as [|e es] eqn:Q; auto. rewrite RE in E.
    assert (Y : In e (flat_map o_errs outs)) by (apply in_flat_map; exists o; split; [eapply nth_error_In; eauto|rewrite Q; left; auto]).
    rewrite E in Y. destruct Y. }
  assert (HI : In r l) by (eapply nth_error_In; eauto).
  destruct (check_origin _ _ _ _ _ _ O2 EO (S r HI)) as [a [A1 A2]].
  destruct (A2 q X3) as [A3 A4]. exists r, a. auto.
Qed.

(* ---- VRF checks ---- *)

Definition vrf_error (e : serror) : Prop :=
  match e with EVrfUndefined _ | EVrfUnsupported | EInterVrf | ENhVrfUndefined _ => True | _ => False end.

(* What is wrong with the VRFs of a route and its next hop *)
Definition vrf_fault (nd : snode) (r : route) (x : nexthop) : Prop :=
  (exists v, r_vrf r = Some v /\ (~ In v (s_vrfs nd) \/ s_fvrf nd = false)) \/
  (exists w, x_vrf x = Some w /\ (s_finter nd = false \/ exists n, w = Some n /\ n <> ""%string /\ ~ In n (s_vrfs nd))).

Lemma vrf_check_spec : forall nd r x,
  match check_VRF_static_route nd r x with
  | Some e => vrf_error e /\ vrf_fault nd r x
  | None => ~ vrf_fault nd r x
  end.
Proof.
  intros nd r x. unfold check_VRF_static_route, vrf_fault.
  assert (S : match x_vrf x with
    | None => None
    | Some v => if negb (s_finter nd) then Some EInterVrf
        else match v with
             | Some n => if negb (String.eqb n "") && negb (memS n (s_vrfs nd)) then Some (ENhVrfUndefined n) else None
             | None => None end end = None ->
    ~ (exists w, x_vrf x = Some w /\ (s_finter nd = false \/ exists n, w = Some n /\ n <> ""%string /\ ~ In n (s_vrfs nd)))).
  { intros E [w [W D]]. rewrite W in E. destruct (s_finter nd); simpl in E; [|discriminate].
    destruct D as [D|[n [-> [N1 N2]]]]; [discriminate|].
    apply String.eqb_neq in N1. apply memS_false in N2. rewrite N1, N2 in E. discriminate. }
  assert (T : forall e, match x_vrf x with
    | None => None
    | Some v => if negb (s_finter nd) then Some EInterVrf
        else match v with
             | Some n => if negb (String.eqb n "") && negb (memS n (s_vrfs nd)) then Some (ENhVrfUndefined n) else None
             | None => None end end = Some e ->
    vrf_error e /\ (exists w, x_vrf x = Some w /\ (s_finter nd = false \/ exists n, w = Some n /\ n <> ""%string /\ ~ In n (s_vrfs nd)))).
  { intros e E. destruct (x_vrf x) as [w|]; [|discriminate]. destruct (s_finter nd) eqn:FI; simpl in E.
    - destruct w as [n|]; [|discriminate]. destruct (String.eqb n "") eqn:N1; simpl in E; [discriminate|].
      destruct (memS n (s_vrfs nd)) eqn:N2; simpl in E; [discriminate|]. inversion E; subst. split; [exact I|].
      exists (Some n). split; auto. right. exists n. split; auto. split; [now apply String.eqb_neq|now apply memS_false].
    - inversion E; subst. split; [exact I|]. exists w. auto. }
  cbv zeta.
  destruct (r_vrf r) as [v|] eqn:V.
  - destruct (memS v (s_vrfs nd)) eqn:M; simpl.
    + destruct (s_fvrf nd) eqn:FV; simpl.
      * match goal with |- match ?g with _ => _ end => destruct g as [e|] eqn:G end.
        -- destruct (T e eq_refl). auto.
        -- intros [[v' [Q1 [Q2|Q2]]]|Q]; [inversion Q1; subst; apply memS_true in M; contradiction|discriminate|].
           exact (S eq_refl Q).
      * split; [exact I|]. left. exists v. auto.
    + split; [exact I|]. left. exists v. split; auto. left. now apply memS_false.
  - match goal with |- match ?g with _ => _ end => destruct g as [e|] eqn:G end.
    + destruct (T e eq_refl). auto.
    + intros [[v' [Q1 _]]|Q]; [discriminate|]. exact (S eq_refl Q).
Qed.

Lemma resolve_errs : forall t nd r x ifs x' ifs' w es, resolve_nexthop ipif inside t nd r x ifs = Some (x', ifs', w, es) ->
  forall e, In e es -> exists n, e = ENotInVrf n.
Proof.
  intros t nd r x ifs x' ifs' w es H e He. unfold resolve_nexthop in H. destruct (truthy_name (x_node x)) as [n|].
  - destruct (resolve_node_nexthop ipif t r x n ifs) as [[s e1]|] eqn:R; [|discriminate]. injection H as _ _ _ H4. subst es.
    unfold resolve_node_nexthop in R.
    destruct (node_hops ipif n (nh_vrf r x) (x_vrf x) ifs ([], false)) as [[l fd]|]; [|discriminate].
    destruct l; [|inversion R; subst; destruct He].
    destruct (fd && negb (route_id_ok r)); [discriminate|].
    destruct (extract_af_info ipif false (get_remote_cp_endpoint t n)); [|discriminate]. inversion R; subst.
    destruct fd; [|destruct He]. destruct He as [<-|[]]. eauto.
  - destruct (x_gw x).
    + destruct (resolve_gateway_nexthop ipif t nd r x false ifs) as [[[i1 s1] w1]|]; [|discriminate].
      destruct s1 as [s1|]; [inversion H; subst; destruct He|].
      destruct (resolve_gateway_nexthop ipif t nd r x true i1) as [[[i2 s2] w2]|]; [|discriminate].
      destruct s2; inversion H; subst; destruct He.
    + destruct (has_af (x_addr x)); [|inversion H; subst; destruct He].
      match type of H with match ?g with _ => _ end = _ => destruct g; [|discriminate] end.
      inversion H; subst; destruct He.
Qed.

Lemma first_not_vrf : forall nd first e, In e (first_err nd first) -> ~ vrf_error e.
Proof. intros nd first e H. unfold first_err in H. destruct (first && negb (s_static nd)); [destruct H as [<-|[]]; auto|destruct H]. Qed.

(* A VRF error is reported exactly when the VRF of the route or of the next hop is not defined on the node or not
   supported by the device; the route then creates no other routes. *)
Theorem vrf_routes_checked : forall t nd first r ifs o x a,
  check_static_route ipif inside t nd first r ifs = Some o -> route_prefixes ipif t r a -> has_af a = true ->
  r_nh r = Some x ->
  ((exists e, In e (o_errs o) /\ vrf_error e) <-> vrf_fault nd r x) /\ (vrf_fault nd r x -> o_added o = []).
Proof.
  intros t nd first r ifs o x a H P HA HN.
  destruct (check_inv _ _ _ _ _ _ _ _ H) as [a' [P' [_ [c [_ K]]]]].
  assert (a' = a) by (eapply prefixes_fun; eauto). subst a'.
  assert (VS := vrf_check_spec nd (with_addr r a) x).
  assert (FE : vrf_fault nd (with_addr r a) x <-> vrf_fault nd r x) by (unfold vrf_fault; simpl; tauto).
  assert (NV : forall es, (forall e, In e es -> ~ vrf_error e) -> ~ vrf_fault nd r x ->
     ((exists e, In e (first_err nd first ++ es) /\ vrf_error e) <-> vrf_fault nd r x)).
  { intros es N1 N2. split; [|contradiction]. intros [e [E1 E2]]. apply in_app_iff in E1.
    destruct E1 as [E1|E1]; [destruct (first_not_vrf _ _ _ E1 E2)|destruct (N1 e E1 E2)]. }
  inversion K; subst; cbn [o_errs o_added] in *.
  - simpl in *. congruence.
  - simpl in *. congruence.
  - simpl in *. congruence.
  - change (r_nh (with_addr r a)) with (r_nh r) in H1. assert (x0 = x) by congruence. subst x0.
    rewrite H2 in VS. destruct VS as [V1 V2]. split; [|auto]. split; [tauto|].
    intros _. exists e. split; auto. apply in_app_iff. right. left. auto.
  - change (r_nh (with_addr r a)) with (r_nh r) in H1. assert (x0 = x) by congruence. subst x0.
    rewrite H2 in VS. split; [|tauto]. apply NV; [|tauto].
    intros e He Hv. destruct (resolve_errs _ _ _ _ _ _ _ _ _ H3 e He) as [n ->]. exact Hv.
  - change (r_nh (with_addr r a)) with (r_nh r) in H1. assert (x0 = x) by congruence. subst x0.
    rewrite H2 in VS. split; [|tauto]. apply NV; [|tauto].
    intros e He Hv. apply in_app_iff in He. destruct He as [He|[<-|[]]]; [|exact Hv].
    destruct (resolve_errs _ _ _ _ _ _ _ _ _ H3 e He) as [n ->]. exact Hv.
  - change (r_nh (with_addr r a)) with (r_nh r) in H1. assert (x0 = x) by congruence. subst x0.
    rewrite H2 in VS. split; [|tauto]. apply NV; [|tauto].
    intros e He Hv. destruct (resolve_errs _ _ _ _ _ _ _ _ _ H3 e He) as [n ->]. exact Hv.
  - change (r_nh (with_addr r a)) with (r_nh r) in H1. assert (x0 = x) by congruence. subst x0.
    rewrite H2 in VS. split; [|tauto]. apply NV; [|tauto].
    intros e He Hv. destruct (resolve_errs _ _ _ _ _ _ _ _ _ H3 e He) as [n ->]. exact Hv.
Qed.

(* ---- generated host routes ---- *)

(* A generated host route (through the gateway, marked to be skipped when there is none) is never left as it is and
   never reported: it is replaced by routes through the gateways, or removed when one of its families has none. *)
Theorem host_routes_quiet : forall t nd first r ifs o x,
  check_static_route ipif inside t nd first r ifs = Some o ->
  source t r = None -> has_af (r_addr r) = true -> r_skip r = true -> r_vrf r = None ->
  r_nh r = Some x -> truthy_name (x_node x) = None -> x_gw x = true -> x_vrf x = None -> x_addr x = no_af -> x_list x = None ->
  s_max nd <> Some 0 ->
  o_errs o = (if first && negb (s_static nd) then [EUnsupported] else []) /\
  o_stored o = true /\ r_remove (o_route o) = true /\
  (o_added o = [] <->
     exists f, aget f (r_addr r) <> None /\ forall h, In h (gw_list ipif t (s_af nd) None None ifs) -> aget f (h_addr h) = None).
Proof.
  intros t nd first r ifs o x H SN HA HS RV HN XN XG XV XA XL MX.
  destruct (check_inv _ _ _ _ _ _ _ _ H) as [a [P [_ [c [C K]]]]].
  unfold route_prefixes in P. rewrite SN in P. subst a. rewrite with_addr_same in K.
  assert (c = false). { destruct c; auto. destruct (proj1 C eq_refl SN). }
  subst c.
  assert (NHV : nh_vrf r x = None) by (unfold nh_vrf; now rewrite XV).
  assert (ES : forall x' ifs' w es, resolve_nexthop ipif inside t nd r x ifs = Some (x', ifs', w, es) ->
     es = [] /\ x' = match gw_list ipif t (s_af nd) None None ifs with [] => x | l => merge_nh (extract_nh_from_list (uniq l)) x end).
  { intros x' ifs' w es R. destruct (resolve_gateway_some _ _ _ _ _ _ _ _ XN XG R) as [_ Q]. rewrite NHV, XV in Q.
    inversion Q; subst. auto. }
  assert (GA : forall f, aget f (x_addr (match gw_list ipif t (s_af nd) None None ifs with
                [] => x | l => merge_nh (extract_nh_from_list (uniq l)) x end)) = None <->
               forall h, In h (gw_list ipif t (s_af nd) None None ifs) -> aget f (h_addr h) = None).
  { intros f. destruct (gw_list ipif t (s_af nd) None None ifs) as [|h0 hs].
    - rewrite XA, no_af_get. split; [intros _ h []|auto].
    - rewrite merge_empty by auto.
      assert (Q : aget f (x_addr (mk_nx (rs_addr (extract_nh_from_list (uniq (h0 :: hs)))) (x_node x) (x_gw x) (x_vrf x)
               (rs_list (extract_nh_from_list (uniq (h0 :: hs)))) (x_intf x) (x_idx x))) = first_addr f (uniq (h0 :: hs)))
        by (destruct f; reflexivity).
      rewrite Q. split.
      + intros N h Hh. destruct (aget f (h_addr h)) eqn:A; auto. exfalso.
        apply (proj2 (first_addr_some f (uniq (h0 :: hs)))); auto. exists h. split; [now apply uniq_In|].
        unfold hop_has. now rewrite A.
      + intros N. destruct (first_addr f (uniq (h0 :: hs))) eqn:A; auto. exfalso.
        assert (B : first_addr f (uniq (h0 :: hs)) <> None) by congruence.
        apply first_addr_some in B. destruct B as [h [B1 B2]]. apply (proj1 (uniq_In _ _)) in B1.
        unfold hop_has in B2. rewrite (N h B1) in B2. discriminate. }
  unfold first_err in K. inversion K; subst; cbn [o_errs o_stored o_route o_added] in *; try congruence.
  - assert (x0 = x) by congruence. subst x0. exfalso. assert (VS := vrf_check_spec nd r x). rewrite H2 in VS.
    destruct VS as [_ [[v [V _]]|[w [V _]]]]; congruence.
  - assert (x0 = x) by congruence. subst x0. destruct (ES _ _ _ _ H3) as [-> ->].
    split; [apply app_nil_r|]. split; [reflexivity|]. split; [reflexivity|]. split; [|reflexivity]. intros _.
    exists f. clear - H4 GA. 
    assert (M : aget f (r_addr r) <> None /\ aget f (x_addr (match gw_list ipif t (s_af nd) None None ifs with
                [] => x | l => merge_nh (extract_nh_from_list (uniq l)) x end)) = None).
    { revert H4. generalize (match gw_list ipif t (s_af nd) None None ifs with
                [] => x | l => merge_nh (extract_nh_from_list (uniq l)) x end). intros y.
      generalize af_list. induction l as [|g l IH]; simpl; [discriminate|].
      destruct (aget g (r_addr r)) eqn:A; destruct (aget g (x_addr y)) eqn:B; auto.
      intros E. inversion E; subst. rewrite A, B. split; [discriminate|auto]. }
    destruct M as [M1 M2]. split; auto. now apply GA.
  - assert (x0 = x) by congruence. subst x0. destruct (ES _ _ _ _ H3) as [-> ->].
    split; [apply app_nil_r|]. split; [reflexivity|]. split; [reflexivity|].
    assert (ML := missing_none _ _ _ H4).
    assert (NN : ~ exists f, aget f (r_addr r) <> None /\ forall h, In h (gw_list ipif t (s_af nd) None None ifs) -> aget f (h_addr h) = None).
    { intros [f [F1 F2]]. apply GA in F2. apply (ML f (af_in f) F1). exact F2. }
    split; [|intros Z; contradiction]. intros Z. exfalso.
    assert (Y : exists f p, aget f (r_addr r) = Some p).
    { unfold has_af in HA. destruct (a4 (r_addr r)) eqn:A4; [exists V4; eauto|]. destruct (a6 (r_addr r)) eqn:A6; [exists V6; eauto|discriminate]. }
    destruct Y as [f [p Y]].
    assert (F1 : aget f (r_addr r) <> None) by congruence.
    assert (Q := ML f (af_in f) F1).
    destruct (gw_list ipif t (s_af nd) None None ifs) as [|h0 hs] eqn:GL.
    { rewrite XA, no_af_get in Q. congruence. }
    rewrite merge_empty in H5 by auto. cbn [x_list extract_nh_from_list rs_list] in H5.
    assert (l = uniq (h0 :: hs)) by (unfold extract_nh_from_list in H5; simpl in H5; inversion H5; reflexivity). subst l.
    assert (HH : exists h, In h (uniq (h0 :: hs)) /\ hop_has f h = true).
    { apply first_addr_some. intros W. apply Q. rewrite merge_empty by auto. destruct f; exact W. }
    destruct HH as [h [H6 H7]].
    destruct (via_nonempty nd r f (uniq (h0 :: hs)) p h Y H6 H7 MX) as [h' [H8 _]].
    apply via_both in H8. rewrite <- expand_via in H8. rewrite Z in H8. destruct H8.
  - assert (x0 = x) by congruence. subst x0. destruct (ES _ _ _ _ H3) as [-> ->]. exfalso.
    assert (ML := missing_none _ _ _ H4).
    destruct (gw_list ipif t (s_af nd) None None ifs) as [|h0 hs] eqn:GL.
    + assert (Y : exists f, aget f (r_addr r) <> None).
      { unfold has_af in HA. destruct (a4 (r_addr r)) eqn:A4; [exists V4; simpl; congruence|].
        destruct (a6 (r_addr r)) eqn:A6; [exists V6; simpl; congruence|discriminate]. }
      destruct Y as [f Y]. apply (ML f (af_in f) Y). rewrite XA. apply no_af_get.
    + rewrite merge_empty in H5 by auto. discriminate.
Qed.

(* ---- exceptions ---- *)

(* A gateway value that can be used: not false, and its addresses can be parsed *)
Definition good_gw (g : gwv) : Prop := match g with GwNone => True | GwFalse => False | GwBox d _ => good_addr ipif d end.
Definition good_intf (i : sintf) : Prop :=
  good_gw (i_gw i) /\ forall g, In g (i_ngb i) -> good_addr ipif (n_addr g) /\ good_gw (n_gw g).

Lemma good_conf : forall i, good_intf i -> conf_ok ipif i.
Proof.
  intros i [G N].
  assert (K : good_gw (conf_gw i)).
  { unfold conf_gw. destruct (gw_true (i_gw i)); auto. destruct (find has_gw (i_ngb i)) as [g|] eqn:F; auto.
    apply find_some in F. destruct F as [F _]. destruct (N g F). auto. }
  unfold conf_ok, conf_addr. destruct (conf_gw i); simpl in K; split; try discriminate; try contradiction; auto;
    split; exact I.
Qed.

Lemma good_last : forall t m i, good_intf i -> good_addr ipif (last_addr t m i).
Proof.
  intros t m i [_ N].
  assert (K : forall f, good_val ipif (opt_str (last_gw t f i))).
  { intros f. unfold last_gw. destruct (find (usable t f) (i_ngb i)) as [g|] eqn:F; [|exact I].
    apply find_some in F. destruct F as [F _]. destruct (N g F) as [[G4 G6] _].
    destruct f; [destruct (a4 (n_addr g)) as [[s|b]|] eqn:E|destruct (a6 (n_addr g)) as [[s|b]|] eqn:E];
      unfold aget; rewrite E; simpl; auto. }
  split; simpl.
  - destruct (memA V4 m); [apply K|exact I].
  - destruct (memA V6 m); [apply K|exact I].
Qed.

Lemma good_last_ok : forall t v ifs m, (forall i, In i ifs -> good_intf i) -> last_ok ipif t v m ifs.
Proof.
  intros t v. induction ifs as [|i ifs IH]; intros m H; simpl; auto.
  assert (G : good_intf i) by (apply H; left; auto).
  assert (H' : forall j, In j ifs -> good_intf j) by (intros j Hj; apply H; right; auto).
  destruct (in_vrf v i); auto. destruct (gw_true (conf_gw i)); split; auto.
  - apply (good_conf i G).
  - now apply good_last.
Qed.

(* The prefixes of the route are texts, its source can be parsed *)
Definition good_route (t : stopo) (r : route) : Prop :=
  (forall a f v, route_prefixes ipif t r a -> aget f a = Some v -> exists s, v = AStr s) /\
  match source t r with Some d => good_addr ipif d | None => True end.

(* An address next hop has a text address for every family of the route, comparable with the interface addresses *)
Definition good_nexthop (t : stopo) (r : route) (x : nexthop) (ifs : list sintf) : Prop :=
  forall a f, route_prefixes ipif t r a -> aget f a <> None ->
    exists s, aget f (x_addr x) = Some (AStr s) /\ ipif s <> None /\
      forall i b, In i ifs -> aget f (i_addr i) = Some (AStr b) -> inside s b <> None.

Lemma expand_good : forall t r, match source t r with Some d => good_addr ipif d | None => True end ->
  exists res, expand_route ipif t r = Some res.
Proof.
  intros t r H. unfold expand_route, source, pool_af in *.
  destruct (r_pool r) as [p|]; [|destruct (r_prefix r) as [p|]; [|destruct (r_node r) as [n|]]]; eauto;
    match type of H with good_addr _ ?d => destruct (extract_good ipif true d) as [b E] end;
    try exact H; rewrite E; eauto.
Qed.

Lemma check_good : forall t nd first r ifs, good_route t r -> (forall i, In i ifs -> good_intf i) ->
  (forall n, good_addr ipif (get_remote_cp_endpoint t n)) ->
  (forall x, r_nh r = Some x -> truthy_name (x_node x) = None -> x_gw x = false -> has_af (x_addr x) = true ->
     good_nexthop t r x ifs) ->
  check_static_route ipif inside t nd first r ifs <> None.
Proof.
  intros t nd first r ifs [GP GS] GI GE GX. unfold check_static_route.
  destruct (expand_good t r GS) as [[r1 c] E]. rewrite E.
  destruct (expand_spec _ _ _ _ _ E) as [a [P [-> _]]].
  assert (ID : route_id_ok (with_addr r a) = true).
  { unfold route_id_ok. simpl. destruct (a4 a) as [[s|b]|] eqn:A4; [| |]; simpl.
    - destruct (a6 a) as [[s'|b']|] eqn:A6; auto. destruct (GP a V6 (ABool b') P A6) as [? ?]; discriminate.
    - destruct (GP a V4 (ABool b) P A4) as [? ?]; discriminate.
    - destruct (a6 a) as [[s'|b']|] eqn:A6; auto. destruct (GP a V6 (ABool b') P A6) as [? ?]; discriminate. }
  rewrite ID. cbn [negb]. rewrite !andb_false_r.
  destruct (negb (has_af (r_addr (with_addr r a)))); [discriminate|].
  change (r_nh (with_addr r a)) with (r_nh r).
  destruct (r_nh r) as [x|] eqn:HN; [|destruct (r_skip (with_addr r a)); discriminate].
  destruct (check_VRF_static_route nd (with_addr r a) x) as [e|]; [rewrite andb_false_r; discriminate|].
  assert (K : exists res, resolve_nexthop ipif inside t nd (with_addr r a) x ifs = Some res).
  { destruct (truthy_name (x_node x)) as [n|] eqn:XN.
    - unfold resolve_nexthop. rewrite XN. unfold resolve_node_nexthop.
      destruct (node_hops_ok ipif n (nh_vrf (with_addr r a) x) (x_vrf x) ifs ([], false)) as [[l fd] Q].
      { intros i g Hi _ Hg _. destruct (GI i Hi) as [_ N]. apply (N g Hg). }
      rewrite Q. destruct l; [|eauto]. rewrite ID. rewrite andb_false_r.
      destruct (extract_good ipif false (get_remote_cp_endpoint t n) (GE n)) as [b B]. rewrite B. eauto.
    - destruct (x_gw x) eqn:XG.
      + apply (resolve_gateway_ok ipif); auto. split; [intros i Hi _; apply good_conf; auto|].
        intros _. now apply good_last_ok.
      + unfold resolve_nexthop. rewrite XN, XG. destruct (has_af (x_addr x)) eqn:HA; [|eauto].
        assert (GN := GX x eq_refl XN XG HA).
        assert (D : forall todo acc, exists l, resolve_nexthop_intf ipif inside todo (with_addr r a) x ifs acc = Some l).
        { induction todo as [|f todo IH]; intros acc; simpl; eauto.
          destruct (aget f a) eqn:A; [|auto].
          destruct (GN a f P) as [s [S1 [S2 S3]]]; [congruence|]. rewrite S1.
          destruct (ipif s); [|congruence].
          destruct (direct_hops_ok inside f s (nh_vrf (with_addr r a) x) (x_vrf x) ifs acc) as [l L].
          { intros i b Hi _. now apply S3. }
          rewrite L. apply IH. }
        destruct (D af_list (match x_list x with Some l => l | None => [] end)) as [l L]. rewrite L. eauto. }
  destruct K as [[[[x' ifs'] w] es] K]. rewrite K.
  destruct (missing_nh af_list (with_nh (with_addr r a) x') x').
  - destruct (r_skip (with_nh (with_addr r a) x')); discriminate.
  - destruct (x_list x'); discriminate.
Qed.

(* No exception when the prefixes are texts, the addresses can be parsed, no gateway is false and every address next
   hop has an address for each family of its route. *)
Theorem static_routes_no_exception : forall t nd l ifs,
  (forall r, In r l -> good_route t r) -> (forall i, In i ifs -> good_intf i) ->
  (forall n, good_addr ipif (get_remote_cp_endpoint t n)) ->
  (forall r x, In r l -> r_nh r = Some x -> truthy_name (x_node x) = None -> x_gw x = false -> has_af (x_addr x) = true ->
     good_nexthop t r x ifs) ->
  exists p, process_static ipif inside t nd l ifs = Some p.
Proof.
  intros t nd l ifs GR GI GE GX. destruct (process_static ipif inside t nd l ifs) as [p|] eqn:E; eauto. exfalso.
  destruct (static_routes_independent ipif inside t nd l ifs) as [[K _] _]. destruct (K E) as [k [r [H1 H2]]].
  apply nth_error_In in H1. revert H2. apply check_good; auto.
Qed.
End Ip.

(* ---- concrete cases ---- *)

Open Scope string_scope.
Definition tip (s : string) : option (string * string) :=
  dget s [("10.0.1.1/24", ("10.0.1.1", "10.0.1.0/24")); ("10.0.1.2/24", ("10.0.1.2", "10.0.1.0/24"));
          ("10.0.1.3/24", ("10.0.1.3", "10.0.1.0/24")); ("10.0.1.2", ("10.0.1.2", "10.0.1.2/32"));
          ("10.0.2.1/24", ("10.0.2.1", "10.0.2.0/24")); ("10.0.2.2/24", ("10.0.2.2", "10.0.2.0/24"));
          ("10.1.0.3/32", ("10.1.0.3", "10.1.0.3/32")); ("172.16.0.0/16", ("172.16.0.0", "172.16.0.0/16"));
          ("fd00::1/64", ("fd00::1", "fd00::/64")); ("fd00::2/64", ("fd00::2", "fd00::/64"));
          ("fd09::2", ("fd09::2", "fd09::2/128"))].
Definition tin (a s : string) : option bool := Some (String.eqb a "10.0.1.2" && String.eqb s "10.0.1.1/24").

Definition v4 (s : string) : afd aval := mk_af (Some (AStr s)) None.
Definition v46 (s u : string) : afd aval := mk_af (Some (AStr s)) (Some (AStr u)).
Definition t_nx (a : afd aval) (n : option string) (g : bool) (v : option (option string)) : nexthop := mk_nx a n g v None None None.
Definition t_rt (a : afd aval) (p : option string) (v : option string) (x : nexthop) : route :=
  mk_route a p None None v (Some x) false false.
Definition t_ng (n : string) (a : afd aval) (g : gwv) : ngb := mk_ngb n a g false false.

(* r1 has two links with r2 (one of them dual-stack, the host h on the first one) and a VRF interface *)
Definition t_ifs : list sintf :=
  [mk_sintf "eth1" None (v4 "10.0.1.1/24") GwNone
     [t_ng "h" (v4 "10.0.1.3/24") GwNone; t_ng "r2" (v46 "10.0.1.2/24" "fd00::2/64") GwNone];
   mk_sintf "eth2" None (v4 "10.0.2.1/24") GwNone [t_ng "r2" (v4 "10.0.2.2/24") GwNone];
   mk_sintf "eth3" (Some "red") no_af GwNone [t_ng "r3" (v4 "10.0.2.2/24") (GwBox (v4 "10.0.2.1/24") true)]].
Definition t_top : stopo :=
  mk_stopo [("lan", v4 "172.16.0.0/16")] []
    [("h", mk_rnode true None [v4 "10.0.1.3/24"]); ("r2", mk_rnode false None [v4 "10.0.1.2/24"]);
     ("r3", mk_rnode false (Some (v4 "10.1.0.3/32")) [])].
Definition t_nd : snode := mk_snode [V4] ["red"] true true true (Some 16).

Definition t_list : list route :=
  [t_rt (v4 "192.168.0.0/24") None None (t_nx no_af (Some "r2") false None);
   t_rt no_af (Some "lan") None (t_nx (v4 "10.0.1.2") None false None);
   t_rt (v4 "192.168.1.0/24") None None (t_nx no_af None true None);
   t_rt (v4 "192.168.2.0/24") None (Some "red") (t_nx no_af None true None);
   t_rt (v4 "192.168.3.0/24") None None (t_nx no_af (Some "r3") false (Some (Some "red")))].

Definition t_one (v : option string) (p : string) (a : afd string) (i : string) (k : nat) : route :=
  one_route v V4 (AStr p) (mk_nhe a i None) k.

Example ex_process : option_map p_routes (process_static tip tin t_top t_nd t_list t_ifs) = Some
  [t_one None "192.168.0.0/24" (mk_af (Some "10.0.1.2") (Some "fd00::2")) "eth1" 0;
   t_one None "192.168.0.0/24" (mk_af (Some "10.0.2.2") None) "eth2" 1;
   t_one None "172.16.0.0/16" (mk_af (Some "10.0.1.2") None) "eth1" 0;
   t_one None "192.168.1.0/24" (mk_af (Some "10.0.1.2") None) "eth1" 0;
   t_one (Some "red") "192.168.2.0/24" (mk_af (Some "10.0.2.1") None) "eth3" 0;
   one_route None V4 (AStr "192.168.3.0/24") (mk_nhe (mk_af (Some "10.0.2.2") None) "eth3" (Some (Some "red"))) 0].
Proof. vm_compute. reflexivity. Qed.

Example ex_process_clean : option_map p_errs (process_static tip tin t_top t_nd t_list t_ifs) = Some [].
Proof. vm_compute. reflexivity. Qed.

Example ex_gateway_of_last_resort : option_map p_ifs (process_static tip tin t_top t_nd t_list t_ifs) = Some
  (match t_ifs with
   | [i1; i2; i3] => [set_gw i1 (GwBox (v4 "10.0.1.2/24") false); i2; set_gw i3 (GwBox (v4 "10.0.2.1/24") true)]
   | l => l
   end).
Proof. vm_compute. reflexivity. Qed.

(* the hypotheses of the theorems about kept routes and exceptions hold in this network *)
Example ex_balanced : balanced tin (v4 "172.16.0.0/16") (t_nx (v4 "10.0.1.2") None false None) None t_ifs.
Proof. intros [|] [|] F G H; simpl in *; try congruence. Qed.

Example ex_pool_prefixes : forall v x, route_prefixes tip t_top (t_rt no_af (Some "lan") v x) (v4 "172.16.0.0/16").
Proof.
  intros v x. exists (v4 "172.16.0.0/16"). split; [exists "172.16.0.0", "172.16.0.0/16"; split; reflexivity|].
  split; [reflexivity|]. intros [|]; reflexivity.
Qed.

Example ex_no_exception : exists p, process_static tip tin t_top t_nd t_list t_ifs = Some p.
Proof.
  apply static_routes_no_exception.
  - intros r H. split.
    + intros a f v P F. simpl in H.
      repeat (destruct H as [<-|H];
        [first [apply (prefixes_fun _ _ _ _ _ (ex_pool_prefixes _ _)) in P|unfold route_prefixes in P; simpl in P];
         subst a; destruct f; simpl in F; inversion F; subst; eauto|]).
      contradiction.
    + simpl in H. repeat (destruct H as [<-|H]; [cbv; try exact I; split; try exact I; discriminate|]). contradiction.
  - intros i H. simpl in H.
    repeat (destruct H as [<-|H]; [split; [exact I|]; simpl; intros g Hg;
      repeat (destruct Hg as [<-|Hg]; [split; [split; simpl; try exact I; discriminate|simpl; try exact I; split; simpl; try exact I; discriminate]|]);
      contradiction|]). contradiction.
  - intros n. unfold get_remote_cp_endpoint. simpl.
    repeat (match goal with |- context [String.eqb ?x ?y] => destruct (String.eqb x y) end;
            [split; simpl; try exact I; discriminate|]). split; exact I.
  - intros r x H N _ _ HA a f P F. simpl in H.
    repeat (destruct H as [<-|H]; [simpl in N; inversion N; subst x; simpl in HA; try discriminate|]); try contradiction.
    apply (prefixes_fun _ _ _ _ _ (ex_pool_prefixes _ _)) in P. subst a. destruct f; simpl in F; [|congruence].
    exists "10.0.1.2". split; [reflexivity|]. split; [discriminate|]. intros; discriminate.
Qed.

Example ex_vrf_fault : vrf_fault t_nd (t_rt (v4 "192.168.3.0/24") None (Some "blue") (t_nx no_af None true None)) (t_nx no_af None true None)
  /\ option_map p_errs (process_static tip tin t_top t_nd
       [t_rt (v4 "192.168.3.0/24") None (Some "blue") (t_nx no_af None true None);
        t_rt (v4 "192.168.3.0/24") None None (t_nx no_af (Some "r2") false (Some (Some "blue")))] t_ifs)
     = Some [EVrfUndefined "blue"; ENhVrfUndefined "blue"].
Proof.
  split; [|vm_compute; reflexivity]. left. exists "blue". split; [reflexivity|]. left. simpl. intuition congruence.
Qed.

(* a host route for two families when the gateway has only one of them *)
Definition t_host (a : afd aval) : route := mk_route a None None None None (Some (t_nx no_af None true None)) true false.
Example ex_host_routes :
  option_map p_routes (process_static tip tin t_top t_nd [t_host (v4 "172.16.0.0/16"); t_host (v46 "172.17.0.0/16" "fd00::/48")] t_ifs)
  = Some [t_one None "172.16.0.0/16" (mk_af (Some "10.0.1.2") None) "eth1" 0]
  /\ option_map p_errs (process_static tip tin t_top t_nd [t_host (v4 "172.16.0.0/16"); t_host (v46 "172.17.0.0/16" "fd00::/48")] t_ifs)
  = Some [].
Proof. split; vm_compute; reflexivity. Qed.

(* A dual-stack route with address next hops loses the family whose next hop is not directly connected: there is no
   error and no route for the prefix. *)
Definition t_dual : route := t_rt (v46 "172.16.0.0/16" "fd08::/48") None None (t_nx (v46 "10.0.1.2" "fd09::2") None false None).
Theorem static_routes_kept_refuted : exists t nd r ifs p,
  process_static tip tin t nd [r] ifs = Some p /\ p_errs p = [] /\ r_skip r = false /\
  aget V6 (r_addr r) = Some (AStr "fd08::/48") /\ (exists x s, r_nh r = Some x /\ aget V6 (x_addr x) = Some (AStr s)) /\
  forall q, In q (p_routes p) -> aget V6 (r_addr q) = None.
Proof.
  exists t_top, t_nd, t_dual, t_ifs. eexists. split; [vm_compute; reflexivity|]. split; [reflexivity|].
  split; [reflexivity|]. split; [reflexivity|]. split; [eexists; eexists; split; reflexivity|].
  intros q [<-|[]]. reflexivity.
Qed.

(* Three configurations that end with an exception: a dual-stack route whose next hop has one address, a route to a
   node without a numbered control-plane address, and a gateway disabled on the neighbor. *)
Theorem static_routes_exception_refuted : exists t nd ifs,
  (exists r x, r_nh r = Some x /\ has_af (x_addr x) = true /\ process_static tip tin t nd [r] ifs = None) /\
  (exists r n, r_node r = Some n /\ get_remote_cp_endpoint t n = mk_af (Some (ABool true)) None /\
     process_static tip tin t nd [r] ifs = None) /\
  (exists r x i, r_nh r = Some x /\ x_gw x = true /\ In i ifs /\ (exists g, In g (i_ngb i) /\ n_gw g = GwFalse) /\
     process_static tip tin t nd [r] ifs = None).
Proof.
  exists (mk_stopo [] [] [("x", mk_rnode false (Some (mk_af (Some (ABool true)) None)) [])]), t_nd.
  exists [mk_sintf "eth1" None (v4 "10.0.1.1/24") GwNone [t_ng "r2" (v4 "10.0.1.2/24") GwFalse]].
  split; [|split].
  - exists (t_rt (v46 "172.16.0.0/16" "fd08::/48") None None (t_nx (v4 "10.0.1.2") None false None)). eexists.
    split; [reflexivity|]. split; vm_compute; reflexivity.
  - exists (mk_route no_af None None (Some "x") None (Some (t_nx (v4 "10.0.1.2") None false None)) false false), "x".
    split; [reflexivity|]. split; vm_compute; reflexivity.
  - exists (t_rt (v4 "172.16.0.0/16") None None (t_nx no_af None true None)). eexists. eexists.
    split; [reflexivity|]. split; [reflexivity|]. split; [left; reflexivity|].
    split; [eexists; split; [left; reflexivity|reflexivity]|vm_compute; reflexivity].
Qed.

Print Assumptions static_routes_independent.
Print Assumptions static_routes_usable.
Print Assumptions node_nexthops_exact.
Print Assumptions address_nexthops_exact.
Print Assumptions gateway_nexthops_exact.
Print Assumptions last_resort_exact.
Print Assumptions static_routes_kept.
Print Assumptions static_routes_kept_refuted.
Print Assumptions static_routes_origin.
Print Assumptions vrf_routes_checked.
Print Assumptions host_routes_quiet.
Print Assumptions static_routes_no_exception.
Print Assumptions static_routes_exception_refuted.
