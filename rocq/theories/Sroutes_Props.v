(* Static routes: independence of the routes, usable results, exact next hops, VRF checks and exceptions. *)
From Coq Require Import String Bool Arith Lia List.
From Verif Require Import Base Sroute_Model Sroute_Props Sroutegw_Props.
Import ListNotations.
Open Scope nat_scope.

Section Ip.
Variable ipif : string -> option (string * string).
Variable inside : string -> string -> option bool.

(* ---- specification vocabulary ---- *)

(* The network of an address value *)
Definition net_val (v w : option aval) : Prop :=
  match v with
  | Some (AStr s) => exists h n, ipif s = Some (h, n) /\ w = Some (AStr n)
  | Some (ABool b) => w = Some (ABool b)
  | None => w = None
  end.

(* The dictionary a route takes its prefixes from: an address pool, a named prefix or a node *)
Definition source (t : stopo) (r : route) : option (afd aval) :=
  match r_pool r with
  | Some k => Some (match dget k (t_pools t) with Some d => d | None => no_af end)
  | None =>
      match r_prefix r with
      | Some k => Some (match dget k (t_prefix t) with Some d => d | None => no_af end)
      | None =>
          match r_node r with
          | Some n => Some (get_remote_cp_endpoint t n)
          | None => None
          end
      end
  end.

(* The prefixes of a route *)
Definition route_prefixes (t : stopo) (r : route) (a : afd aval) : Prop :=
  match source t r with
  | None => a = r_addr r
  | Some d =>
      exists b, net_val (a4 d) (a4 b) /\ net_val (a6 d) (a6 b) /\
        forall f, aget f a = match aget f b with Some w => Some w | None => aget f (r_addr r) end
  end.

(* A route with a single prefix and a single next hop *)
Definition one_route (v : option string) (f : af) (p : aval) (h : nhe) (k : nat) : route :=
  mk_route (match f with V4 => mk_af (Some p) None | V6 => mk_af None (Some p) end) None None None v
    (Some (mk_nx (mk_af (opt_str (a4 (h_addr h))) (opt_str (a6 (h_addr h)))) None false (h_vrf h) None
                 (Some (h_intf h)) (Some k))) false false.

Definition hop_has (f : af) (h : nhe) : bool := match aget f (h_addr h) with Some _ => true | None => false end.

(* The routes created for a prefix of one address family: one for every next hop of that family, numbered from zero,
   up to the limit of the device *)
Definition max_hops (nd : snode) : nat := match s_max nd with Some m => m | None => 256 end.
Definition routes_via (nd : snode) (v : option string) (f : af) (p : option aval) (hops : list nhe) (l : list route) : Prop :=
  match p with
  | None => l = []
  | Some q =>
      forall k, nth_error l k =
        if k <? max_hops nd then option_map (fun h => one_route v f q h k) (nth_error (filter (hop_has f) hops) k) else None
  end.

(* ---- prefixes ---- *)

Lemma with_addr_same : forall r, with_addr r (r_addr r) = r.
Proof. destruct r; reflexivity. Qed.

Lemma extract_net : forall d b, extract_af_info ipif true d = Some b -> net_val (a4 d) (a4 b) /\ net_val (a6 d) (a6 b).
Proof.
  intros d b H. unfold extract_af_info in H.
  destruct (extract_one ipif true (a4 d)) as [x|] eqn:E4; [|discriminate].
  destruct (extract_one ipif true (a6 d)) as [y|] eqn:E6; [|discriminate].
  inversion H; subst. simpl.
  assert (K : forall v w, extract_one ipif true v = Some w -> net_val v w).
  { intros [[s|c]|] w E; simpl in *; try (inversion E; auto; fail).
    destruct (ipif s) as [[h n]|]; [|discriminate]. inversion E. exists h, n. auto. }
  split; apply K; auto.
Qed.

Lemma amerge_get : forall (d e : afd aval) f, aget f (amerge d e) = match aget f e with Some w => Some w | None => aget f d end.
Proof. intros d e [|]; unfold amerge; simpl; [destruct (a4 e)|destruct (a6 e)]; reflexivity. Qed.

Lemma expand_spec : forall t r r' c, expand_route ipif t r = Some (r', c) ->
  exists a, route_prefixes t r a /\ r' = with_addr r a /\ (c = true <-> source t r <> None).
Proof.
  intros t r r' c H. unfold expand_route in H. unfold route_prefixes, source, pool_af in *.
  assert (K : forall d, match extract_af_info ipif true d with
                        | Some b => Some (with_addr r (amerge (r_addr r) b), true) | None => None end = Some (r', c) ->
    exists a, (exists b, net_val (a4 d) (a4 b) /\ net_val (a6 d) (a6 b) /\
        forall f, aget f a = match aget f b with Some w => Some w | None => aget f (r_addr r) end)
      /\ r' = with_addr r a /\ (c = true <-> Some d <> None)).
  { intros d E. destruct (extract_af_info ipif true d) as [b|] eqn:X; [|discriminate]. inversion E; subst.
    exists (amerge (r_addr r) b). apply extract_net in X. destruct X as [X4 X6].
    split; [exists b; split; auto; split; auto; intros f; apply amerge_get|]. split; auto. split; congruence. }
  destruct (r_pool r) as [k|]; [apply K; auto|].
  destruct (r_prefix r) as [k|]; [apply K; auto|].
  destruct (r_node r) as [n|]; [apply K; auto|].
  inversion H; subst. exists (r_addr r'). split; auto. split; [now rewrite with_addr_same|].
  split; [discriminate|congruence].
Qed.

Lemma net_val_fun : forall v w w', net_val v w -> net_val v w' -> w = w'.
Proof.
  intros [[s|b]|] w w'; simpl; try congruence.
  intros [h [n [E ->]]] [h' [n' [E' ->]]]. congruence.
Qed.

Lemma prefixes_fun : forall t r a a', route_prefixes t r a -> route_prefixes t r a' -> a = a'.
Proof.
  intros t r a a'. unfold route_prefixes. destruct (source t r) as [d|]; [|congruence].
  intros [b [B4 [B6 B]]] [b' [B4' [B6' B']]].
  assert (E4 := net_val_fun _ _ _ B4 B4'). assert (E6 := net_val_fun _ _ _ B6 B6').
  assert (G4 := B V4). assert (G6 := B V6). assert (G4' := B' V4). assert (G6' := B' V6). simpl in *.
  destruct a, a'. simpl in *. rewrite G4, G6, G4', G6', E4, E6. reflexivity.
Qed.

(* ---- the cases of check_static_route ---- *)

Inductive checked (t : stopo) (nd : snode) (e0 : list serror) (r : route) (copy : bool) (ifs : list sintf) : outcome -> Prop :=
| C_noprefix : has_af (r_addr r) = false ->
    checked t nd e0 r copy ifs (mk_out r (negb copy) [] ifs false (e0 ++ [ENoPrefix]))
| C_skip : has_af (r_addr r) = true -> r_nh r = None -> r_skip r = true ->
    checked t nd e0 r copy ifs (mk_out (removed r) (negb copy) [] ifs false e0)
| C_nonh : has_af (r_addr r) = true -> r_nh r = None -> r_skip r = false -> route_id_ok r = true ->
    checked t nd e0 r copy ifs (mk_out r (negb copy) [] ifs false (e0 ++ [ENoNexthop]))
| C_vrf : forall x e, has_af (r_addr r) = true -> r_nh r = Some x -> check_VRF_static_route nd r x = Some e ->
    checked t nd e0 r copy ifs (mk_out r (negb copy) [] ifs false (e0 ++ [e]))
| C_skipmiss : forall x x' ifs' w es f, has_af (r_addr r) = true -> r_nh r = Some x -> check_VRF_static_route nd r x = None ->
    resolve_nexthop ipif inside t nd r x ifs = Some (x', ifs', w, es) ->
    missing_nh af_list r x' = Some f -> r_skip r = true ->
    checked t nd e0 r copy ifs (mk_out (removed (with_nh r x')) (negb copy) [] ifs' w (e0 ++ es))
| C_miss : forall x x' ifs' w es f, has_af (r_addr r) = true -> r_nh r = Some x -> check_VRF_static_route nd r x = None ->
    resolve_nexthop ipif inside t nd r x ifs = Some (x', ifs', w, es) ->
    missing_nh af_list r x' = Some f -> r_skip r = false ->
    checked t nd e0 r copy ifs (mk_out (with_nh r x') (negb copy) [] ifs' w (e0 ++ es ++ [ENoAddr f]))
| C_list : forall x x' ifs' w es l, has_af (r_addr r) = true -> r_nh r = Some x -> check_VRF_static_route nd r x = None ->
    resolve_nexthop ipif inside t nd r x ifs = Some (x', ifs', w, es) ->
    missing_nh af_list r x' = None -> x_list x' = Some l ->
    checked t nd e0 r copy ifs (mk_out (removed (with_nh r x')) true (expand_hops nd r l) ifs' w (e0 ++ es))
| C_keep : forall x x' ifs' w es, has_af (r_addr r) = true -> r_nh r = Some x -> check_VRF_static_route nd r x = None ->
    resolve_nexthop ipif inside t nd r x ifs = Some (x', ifs', w, es) ->
    missing_nh af_list r x' = None -> x_list x' = None ->
    checked t nd e0 r copy ifs (mk_out (with_nh r (with_idx x' 0)) true [] ifs' w (e0 ++ es)).

Definition first_err (nd : snode) (first : bool) : list serror := if first && negb (s_static nd) then [EUnsupported] else [].

Lemma missing_with : forall todo r x y, missing_nh todo (with_nh r y) x = missing_nh todo r x.
Proof. induction todo as [|f l IH]; intros r x y; simpl; auto. destruct (aget f (r_addr r)), (aget f (x_addr x)); auto. Qed.

Lemma number_with : forall l k r x f p, number k (with_nh r x) f p l = number k r f p l.
Proof. induction l as [|h l IH]; intros k r x f p; simpl; auto. now rewrite IH. Qed.

Lemma expand_with : forall nd r x l, expand_hops nd (with_nh r x) l = expand_hops nd r l.
Proof.
  intros nd r x l. unfold expand_hops. simpl.
  destruct (a4 (r_addr r)), (a6 (r_addr r)); simpl; rewrite ?number_with; reflexivity.
Qed.

Lemma check_inv : forall t nd first r0 ifs o, check_static_route ipif inside t nd first r0 ifs = Some o ->
  exists a, route_prefixes t r0 a /\ (first = true -> route_id_ok (with_addr r0 a) = true) /\
    exists copy, (copy = true <-> source t r0 <> None) /\ checked t nd (first_err nd first) (with_addr r0 a) copy ifs o.
Proof.
  intros t nd first r0 ifs o H. unfold check_static_route in H.
  destruct (expand_route ipif t r0) as [[r copy]|] eqn:E; [|discriminate].
  destruct (expand_spec _ _ _ _ E) as [a [P [-> C]]]. exists a. split; auto.
  fold (first_err nd first) in H. set (r := with_addr r0 a) in *. clearbody r.
  destruct (first && negb (route_id_ok r)) eqn:F; [discriminate|].
  split; [intros ->; simpl in F; destruct (route_id_ok r); auto|]. exists copy. split; auto.
  destruct (has_af (r_addr r)) eqn:HA; cbn [negb] in H; [|inversion H; subst; apply C_noprefix; auto].
  destruct (r_nh r) as [x|] eqn:HN.
  - destruct (check_VRF_static_route nd r x) as [e|] eqn:HV.
    + destruct (error_has_id e && negb (route_id_ok r)); [discriminate|]. inversion H; subst. eapply C_vrf; eauto.
    + destruct (resolve_nexthop ipif inside t nd r x ifs) as [[[[x' ifs'] w] es]|] eqn:HR; [|discriminate].
      destruct (missing_nh af_list (with_nh r x') x') as [f|] eqn:M; rewrite missing_with in M.
      * change (r_skip (with_nh r x')) with (r_skip r) in H. destruct (r_skip r) eqn:S; inversion H; subst.
        -- eapply C_skipmiss; eauto.
        -- eapply C_miss; eauto.
      * destruct (x_list x') as [l|] eqn:L; inversion H; subst.
        -- rewrite expand_with. eapply C_list; eauto.
        -- eapply C_keep; eauto.
  - destruct (r_skip r) eqn:S; [inversion H; subst; apply C_skip; auto|].
    destruct (route_id_ok r) eqn:O; [|discriminate]. inversion H; subst. apply C_nonh; auto.
Qed.

(* ---- the routes are independent ---- *)

Definition nogw (i : sintf) : sintf := set_gw i GwNone.

Lemma nogw_last : forall t v m ifs, map nogw (last_ifs t v m ifs) = map nogw ifs.
Proof.
  intros t v m ifs. revert m. induction ifs as [|i ifs IH]; intros m; simpl; auto.
  destruct (in_vrf v i); [destruct (gw_true (conf_gw i))|]; simpl; rewrite IH; reflexivity.
Qed.
Lemma nogw_cached : forall v ifs, map nogw (cached v ifs) = map nogw ifs.
Proof.
  intros v. induction ifs as [|i ifs IH]; simpl; auto. rewrite IH. destruct (in_vrf v i); reflexivity.
Qed.
Lemma nogw_ifs : forall t m v ifs, map nogw (gw_ifs ipif t m v ifs) = map nogw ifs.
Proof. intros t m v ifs. unfold gw_ifs. destruct (conf_hops ipif v None ifs); [apply nogw_last|apply nogw_cached]. Qed.

Lemma node_hops_nogw : forall n v xv ifs st, node_hops ipif n v xv ifs st = node_hops ipif n v xv (map nogw ifs) st.
Proof.
  intros n v xv. induction ifs as [|i ifs IH]; intros st; simpl; auto.
  assert (K : forall l s, node_ngbs ipif n v xv (nogw i) l s = node_ngbs ipif n v xv i l s).
  { induction l as [|g l IHl]; intros s; simpl; auto. rewrite !IHl.
    destruct (extract_af_info ipif false (n_addr g)) as [b|]; [rewrite IHl|]; reflexivity. }
  rewrite K. destruct (node_ngbs ipif n v xv i (i_ngb i) st); auto.
Qed.

Lemma direct_nogw : forall f a v xv ifs acc, direct_hops inside f a v xv ifs acc = direct_hops inside f a v xv (map nogw ifs) acc.
Proof.
  intros f a v xv. induction ifs as [|i ifs IH]; intros acc; simpl; auto.
  rewrite !IH. destruct (aget f (i_addr i)) as [[s|b]|]; auto.
Qed.

Lemma resolve_intf_nogw : forall todo r x ifs acc,
  resolve_nexthop_intf ipif inside todo r x ifs acc = resolve_nexthop_intf ipif inside todo r x (map nogw ifs) acc.
Proof.
  induction todo as [|f todo IH]; intros r x ifs acc; simpl; auto.
  destruct (aget f (r_addr r)) as [q|]; auto. destruct (aget f (x_addr x)) as [[a|b]|]; auto.
  destruct (ipif a); auto. rewrite direct_nogw.
  destruct (direct_hops inside f a (nh_vrf r x) (x_vrf x) (map nogw ifs) acc); auto.
Qed.

Definition drop_ifs (q : nexthop * list sintf * bool * list serror) : nexthop * bool * list serror :=
  match q with (x, _, w, e) => (x, w, e) end.

Lemma resolve_stable : forall t nd v ifs r x, gw_fine ipif t (s_af nd) v ifs ->
  option_map drop_ifs (resolve_nexthop ipif inside t nd r x (gw_ifs ipif t (s_af nd) v ifs)) =
  option_map drop_ifs (resolve_nexthop ipif inside t nd r x ifs).
Proof.
  intros t nd v ifs r x G. destruct (truthy_name (x_node x)) as [n|] eqn:N.
  - unfold resolve_nexthop. rewrite N. unfold resolve_node_nexthop.
    rewrite node_hops_nogw, nogw_ifs, <- node_hops_nogw.
    destruct (node_hops ipif n (nh_vrf r x) (x_vrf x) ifs ([], false)) as [[l fd]|]; auto.
    destruct l as [|h l]; auto. destruct (fd && negb (route_id_ok r)); auto.
    destruct (extract_af_info ipif false (get_remote_cp_endpoint t n)); auto.
  - destruct (x_gw x) eqn:X.
    + destruct (gw_cache ipif t (s_af nd) v (nh_vrf r x) (x_vrf x) ifs G) as [F [L W]].
      destruct (resolve_nexthop ipif inside t nd r x ifs) as [q|] eqn:E.
      * destruct (resolve_gateway_some _ _ _ _ _ _ _ _ N X E) as [F1 ->].
        destruct (resolve_gateway_ok ipif inside t nd r x _ N X (proj2 F F1)) as [q' E'].
        rewrite E'. destruct (resolve_gateway_some _ _ _ _ _ _ _ _ N X E') as [_ ->]. simpl.
        rewrite L. f_equal. f_equal.
        destruct (gw_list ipif t (s_af nd) (nh_vrf r x) (x_vrf x) ifs) eqn:GL; auto. rewrite W; auto.
      * destruct (resolve_nexthop ipif inside t nd r x (gw_ifs ipif t (s_af nd) v ifs)) as [q|] eqn:E'; auto.
        destruct (resolve_gateway_some _ _ _ _ _ _ _ _ N X E') as [F1 _].
        destruct (resolve_gateway_ok ipif inside t nd r x _ N X (proj1 F F1)) as [q' E2]. congruence.
    + unfold resolve_nexthop. rewrite N, X. destruct (has_af (x_addr x)); auto.
      rewrite resolve_intf_nogw, nogw_ifs, <- resolve_intf_nogw.
      destruct (resolve_nexthop_intf ipif inside af_list r x ifs (match x_list x with Some l => l | None => [] end)); auto.
Qed.

Lemma resolve_ifs : forall t nd r x ifs x' ifs' w es, resolve_nexthop ipif inside t nd r x ifs = Some (x', ifs', w, es) ->
  ifs' = ifs \/ exists v, gw_fine ipif t (s_af nd) v ifs /\ ifs' = gw_ifs ipif t (s_af nd) v ifs.
Proof.
  intros t nd r x ifs x' ifs' w es H. destruct (truthy_name (x_node x)) as [n|] eqn:N.
  - unfold resolve_nexthop in H. rewrite N in H. destruct (resolve_node_nexthop ipif t r x n ifs) as [[s e]|]; [|discriminate].
    inversion H; auto.
  - destruct (x_gw x) eqn:X.
    + destruct (resolve_gateway_some _ _ _ _ _ _ _ _ N X H) as [G E]. inversion E; subst. right. eauto.
    + unfold resolve_nexthop in H. rewrite N, X in H. destruct (has_af (x_addr x)); [|inversion H; auto].
      match type of H with match ?g with _ => _ end = _ => destruct g; [|discriminate] end. inversion H; auto.
Qed.

Definition strip (o : outcome) : route * bool * list route * bool * list serror :=
  (o_route o, o_stored o, o_added o, o_warn o, o_errs o).

Lemma check_by_resolve : forall t nd first r ifs ifs',
  (forall x r', option_map drop_ifs (resolve_nexthop ipif inside t nd r' x ifs') =
                option_map drop_ifs (resolve_nexthop ipif inside t nd r' x ifs)) ->
  option_map strip (check_static_route ipif inside t nd first r ifs') =
  option_map strip (check_static_route ipif inside t nd first r ifs).
Proof.
  intros t nd first r0 ifs ifs' H. unfold check_static_route.
  destruct (expand_route ipif t r0) as [[r copy]|]; auto.
  destruct (first && negb (route_id_ok r)); auto.
  destruct (negb (has_af (r_addr r))); auto.
  destruct (r_nh r) as [x|].
  - destruct (check_VRF_static_route nd r x) as [e|].
    + destruct (error_has_id e && negb (route_id_ok r)); auto.
    + specialize (H x r).
      destruct (resolve_nexthop ipif inside t nd r x ifs') as [[[[x1 i1] w1] e1]|];
        destruct (resolve_nexthop ipif inside t nd r x ifs) as [[[[x2 i2] w2] e2]|]; simpl in H; try discriminate; auto.
      inversion H; subst. destruct (missing_nh af_list (with_nh r x2) x2) as [f|].
      * destruct (r_skip (with_nh r x2)); reflexivity.
      * destruct (x_list x2); reflexivity.
  - destruct (r_skip r); auto. destruct (route_id_ok r); auto.
Qed.

Lemma check_ifs : forall t nd first r ifs o, check_static_route ipif inside t nd first r ifs = Some o ->
  o_ifs o = ifs \/ exists v, gw_fine ipif t (s_af nd) v ifs /\ o_ifs o = gw_ifs ipif t (s_af nd) v ifs.
Proof.
  intros t nd first r ifs o H. destruct (check_inv _ _ _ _ _ _ H) as [a [_ [_ [c [_ K]]]]].
  inversion K; subst; simpl; auto; eapply resolve_ifs; eauto.
Qed.

Lemma check_stable : forall t nd first r ifs o, check_static_route ipif inside t nd first r ifs = Some o ->
  forall first2 r2, option_map strip (check_static_route ipif inside t nd first2 r2 (o_ifs o)) =
                    option_map strip (check_static_route ipif inside t nd first2 r2 ifs).
Proof.
  intros t nd first r ifs o H first2 r2. apply check_by_resolve. intros x r'.
  destruct (check_ifs _ _ _ _ _ _ H) as [->|[v [G ->]]]; auto. now apply resolve_stable.
Qed.

(* The outcomes of the routes, all computed with the interfaces found at the start *)
Fixpoint all_checked (t : stopo) (nd : snode) (first : bool) (l : list route) (ifs : list sintf) : option (list outcome) :=
  match l with
  | [] => Some []
  | r :: rest =>
      match check_static_route ipif inside t nd first r ifs, all_checked t nd false rest ifs with
      | Some o, Some os => Some (o :: os)
      | _, _ => None
      end
  end.

Fixpoint keep_or (l : list route) (os : list outcome) : list route :=
  match l, os with
  | r :: l', o :: os' => (if o_stored o then o_route o else r) :: keep_or l' os'
  | _, _ => []
  end.

Lemma check_routes_all : forall t nd l first ifs0 st,
  (forall first2 r2, option_map strip (check_static_route ipif inside t nd first2 r2 (ss_ifs st)) =
                     option_map strip (check_static_route ipif inside t nd first2 r2 ifs0)) ->
  match check_routes ipif inside t nd first l st, all_checked t nd first l ifs0 with
  | None, None => True
  | Some st', Some os =>
      ss_done st' = ss_done st ++ keep_or l os /\ ss_added st' = ss_added st ++ flat_map o_added os /\
      ss_errs st' = ss_errs st ++ flat_map o_errs os /\
      ss_warned st' = ss_warned st || existsb o_warn os /\
      ss_warns st' = ss_warns st + (if negb (ss_warned st) && existsb o_warn os then 1 else 0)
  | _, _ => False
  end.
Proof.
  intros t nd. induction l as [|r l IH]; intros first ifs0 st H; simpl.
  - rewrite !app_nil_r, orb_false_r, andb_false_r. repeat split; auto.
  - assert (H0 := H first r).
    destruct (check_static_route ipif inside t nd first r (ss_ifs st)) as [o|] eqn:E1;
      destruct (check_static_route ipif inside t nd first r ifs0) as [o'|] eqn:E2; simpl in H0; try discriminate; auto.
    match goal with |- context [check_routes _ _ _ _ _ _ ?s] => set (st1 := s) end.
    assert (H1 : forall first2 r2, option_map strip (check_static_route ipif inside t nd first2 r2 (ss_ifs st1)) =
                                   option_map strip (check_static_route ipif inside t nd first2 r2 ifs0)).
    { intros first2 r2. unfold st1. simpl. rewrite (check_stable _ _ _ _ _ _ E1). apply H. }
    specialize (IH false ifs0 st1 H1).
    destruct (check_routes ipif inside t nd false l st1) as [st'|]; destruct (all_checked t nd false l ifs0) as [os|]; auto.
    destruct IH as [A [B [C [D F]]]]. unfold st1 in *. simpl in *.
    unfold strip in H0. inversion H0 as [[Q1 Q2 Q3 Q4 Q5]].
    rewrite A, B, C, D, F, Q1, Q2, Q3, Q4, Q5. rewrite <- !app_assoc. simpl.
    repeat split; auto.
    + now rewrite orb_assoc.
    + destruct (ss_warned st), (o_warn o'); simpl; lia.
Qed.

Lemma all_checked_nth : forall t nd l first ifs os, all_checked t nd first l ifs = Some os ->
  length os = length l /\
  forall k r, nth_error l k = Some r ->
    exists o, nth_error os k = Some o /\
      check_static_route ipif inside t nd (match k with O => first | _ => false end) r ifs = Some o.
Proof.
  intros t nd. induction l as [|r l IH]; intros first ifs os H; simpl in H.
  - inversion H; subst. split; auto. intros [|k] r E; discriminate.
  - destruct (check_static_route ipif inside t nd first r ifs) as [o|] eqn:E; [|discriminate].
    destruct (all_checked t nd false l ifs) as [os'|] eqn:E'; [|discriminate]. inversion H; subst.
    destruct (IH _ _ _ E') as [L N]. split; [simpl; auto|].
    intros [|k] r' K; simpl in K.
    + inversion K; subst. exists o. split; auto.
    + destruct (N k r' K) as [o' [O1 O2]]. exists o'. split; auto. destruct k; auto.
Qed.

Lemma all_checked_none : forall t nd l first ifs, all_checked t nd first l ifs = None <->
  exists k r, nth_error l k = Some r /\
    check_static_route ipif inside t nd (match k with O => first | _ => false end) r ifs = None.
Proof.
  intros t nd. induction l as [|r l IH]; intros first ifs; simpl.
  - split; [discriminate|]. intros [[|k] [r [E _]]]; discriminate.
  - destruct (check_static_route ipif inside t nd first r ifs) as [o|] eqn:E.
    + destruct (all_checked t nd false l ifs) as [os|] eqn:E'.
      * split; [discriminate|]. intros [[|k] [r' [K N]]]; simpl in K; [inversion K; subst; congruence|].
        assert (Q : all_checked t nd false l ifs = None).
        { apply IH. exists k, r'. split; auto. destruct k; auto. }
        congruence.
      * split; auto. intros _. apply IH in E'. destruct E' as [k [r' [K N]]]. exists (S k), r'. split; auto.
        destruct k; auto.
    + split; auto. intros _. exists 0, r. auto.
Qed.

(* Every route is processed as if it were the only one: the gateway data cached on the interfaces by other routes do
   not change its outcome. The node list is the updated routes without the removed ones, followed by the added
   routes; there is an exception exactly when one of the routes raises it. *)
Theorem static_routes_independent : forall t nd l ifs,
  (process_static ipif inside t nd l ifs = None <->
     exists k r, nth_error l k = Some r /\ check_static_route ipif inside t nd (k =? 0) r ifs = None) /\
  forall p, process_static ipif inside t nd l ifs = Some p ->
    exists outs, length outs = length l
      /\ (forall k r, nth_error l k = Some r ->
            exists o, nth_error outs k = Some o /\ check_static_route ipif inside t nd (k =? 0) r ifs = Some o)
      /\ p_routes p = filter (fun r => negb (r_remove r))
           (map (fun q => if o_stored (snd q) then o_route (snd q) else fst q) (combine l outs) ++ flat_map o_added outs)
      /\ p_errs p = flat_map o_errs outs
      /\ p_warns p = if existsb o_warn outs then 1 else 0.
Proof.
  intros t nd l ifs.
  assert (K := check_routes_all t nd l true ifs (mk_sst [] [] ifs false 0 [])).
  specialize (K (fun _ _ => eq_refl)). unfold process_static.
  assert (Q : forall k : nat, match k with O => true | _ => false end = (k =? 0)) by (intros [|k]; reflexivity).
  destruct (check_routes ipif inside t nd true l (mk_sst [] [] ifs false 0 [])) as [st'|] eqn:E;
    destruct (all_checked t nd true l ifs) as [os|] eqn:A; try contradiction.
  - simpl in K. destruct K as [K1 [K2 [K3 [K4 K5]]]].
    destruct (all_checked_nth _ _ _ _ _ _ A) as [L N]. split.
    + split; [discriminate|]. intros [k [r [H1 H2]]]. destruct (N k r H1) as [o [_ H3]]. rewrite Q in H3. congruence.
    + intros p Hp. inversion Hp; subst. simpl. exists os. split; auto. split.
      { intros k r H1. destruct (N k r H1) as [o [H2 H3]]. rewrite Q in H3. eauto. }
      split; [|split; auto].
      unfold cleanup_static_routes. rewrite K1, K2. f_equal. f_equal. clear.
      revert os. induction l as [|r l IH]; intros [|o os]; simpl; auto. now rewrite IH.
  - split; [|discriminate]. split; auto. intros _. apply all_checked_none in A.
    destruct A as [k [r [H1 H2]]]. exists k, r. rewrite Q in H2. auto.
Qed.
End Ip.
