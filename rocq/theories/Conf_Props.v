(* Properties C173 - C174: custom configuration templates, proxy ARP. *)
From Coq Require Import String Ascii ZArith Lia Bool List.
From Verif Require Import Base Box_Model Text_Model Conf_Model.
Import ListNotations.
Local Open Scope string_scope.
Local Open Scope list_scope.

Section Spec.
Variable find : string -> bool.

(* ------------------------------------------------------------------ *)
(* Specification                                                        *)

(* a node has a template in the directory [cfg] *)
Definition has_template (n : cnode) (cfg : string) : Prop :=
  find (cfg ++ "/" ++ cn_name n ++ "." ++ cn_device n ++ ".j2")%string = true \/ find (cfg ++ "/" ++ cn_name n ++ ".j2")%string = true \/
  find (cfg ++ "/" ++ cn_device n ++ ".j2")%string = true.

(* a missing template that is noticed: nothing was found up to it *)
Definition noticed (n : cnode) (cfg : string) : Prop :=
  exists l k, cn_config n = Some l /\ nth_error l k = Some cfg /\ forall j c, j <= k -> nth_error l j = Some c -> ~ has_template n c.

(* ------------------------------------------------------------------ *)

Lemma found_iff : forall n cfg, found find n cfg = true <-> has_template n cfg.
Proof.
  intros n cfg. unfold found, has_template, candidates. cbn [existsb]. rewrite !orb_true_iff. split.
  - intros [H|[H|[H|H]]]; [left; exact H|right; left; exact H|right; right; exact H|discriminate H].
  - intros [H|[H|H]]; [left; exact H|right; left; exact H|right; right; left; exact H].
Qed.

(* templates before the first one found *)
Fixpoint prefix (n : cnode) (l : list string) : list string :=
  match l with [] => [] | c :: r => if found find n c then [] else c :: prefix n r end.

Lemma prefix_spec : forall n l c, In c (prefix n l) <-> exists k, nth_error l k = Some c /\ forall j x, j <= k -> nth_error l j = Some x -> ~ has_template n x.
Proof.
  intros n l. induction l as [|y l IH]; intros c; cbn [prefix].
  - split; [intros []|]. intros [k [H _]]. destruct k; discriminate H.
  - pose proof (found_iff n y) as FI. destruct (found find n y).
    + split; [intros []|]. intros [k [_ H]]. apply (H 0 y); [lia|reflexivity|apply FI; reflexivity].
    + assert (NY : ~ has_template n y) by (intros K; apply FI in K; discriminate K). cbn [In]. rewrite IH. split.
      * intros [H|[k [H1 H2]]].
        -- subst y. exists 0. split; [reflexivity|]. intros j x L N. replace j with 0 in N by lia. cbn [nth_error] in N. injection N as N. subst x. exact NY.
        -- exists (S k). split; [exact H1|]. intros [|j] x L N; [cbn [nth_error] in N; injection N as N; subst x; exact NY|]. apply (H2 j x); [lia|exact N].
      * intros [[|k] [H1 H2]]; [left; cbn [nth_error] in H1; injection H1 as H1; exact H1|]. right. exists k. split; [exact H1|]. intros j x L N. apply (H2 (S j) x); [lia|exact N].
Qed.

Lemma noticed_iff : forall n c, noticed n c <-> In c (match cn_config n with Some l => prefix n l | None => [] end).
Proof.
  intros n c. unfold noticed. destruct (cn_config n) as [l|].
  - rewrite prefix_spec. split; [intros [l' [k [E H]]]; injection E as E; subst l'; exists k; exact H|intros [k H]; exists l, k; split; [reflexivity|exact H]].
  - split; [intros [l [k [E _]]]; discriminate E|intros []].
Qed.

Lemma filter_twice : forall (f g : string -> bool) l, filter f (filter g l) = filter (fun x => g x && f x) l.
Proof.
  intros f g l. induction l as [|x l IH]; [reflexivity|]. cbn [filter]. destruct (g x); cbn [andb filter]; [|exact IH]. destruct (f x); rewrite IH; reflexivity.
Qed.

Lemma check_list_spec : forall n todo cfgs m, check_list find n todo cfgs m =
  (filter (fun f => negb (memS f (prefix n todo))) cfgs, fold_left (fun m c => add_missing n c m) (prefix n todo) m).
Proof.
  intros n todo. induction todo as [|c r IH]; intros cfgs m; cbn [check_list prefix].
  - f_equal. symmetry. induction cfgs as [|x l IHl]; [reflexivity|]. cbn [filter memS existsb negb]. f_equal. exact IHl.
  - destruct (found find n c).
    + f_equal. symmetry. induction cfgs as [|x l IHl]; [reflexivity|]. cbn [filter memS existsb negb]. f_equal. exact IHl.
    + rewrite IH, filter_twice. cbn [fold_left]. f_equal. apply filter_ext. intros x. unfold memS at 2. cbn [existsb]. fold (memS x (prefix n r)). rewrite negb_orb. reflexivity.
Qed.

(* The templates of a node: the noticed ones are removed, the others stay in order. *)
Theorem check_config_kept : forall nodes nodes' w, check_config find nodes = (nodes', w) ->
  length nodes' = length nodes /\ forall k n, nth_error nodes k = Some n -> exists n', nth_error nodes' k = Some n' /\
    cn_name n' = cn_name n /\ cn_device n' = cn_device n /\
    (cn_config n = None -> cn_config n' = None) /\
    (forall l, cn_config n = Some l -> exists keep, cn_config n' = Some (filter keep l) /\ forall c, In c l -> (keep c = true <-> ~ noticed n c)).
Proof.
  intros nodes nodes' w H. unfold check_config in H. destruct (check_nodes find nodes []) as [r m] eqn:C. injection H as H _. subst r.
  revert nodes' m C. generalize (@nil (string * cmiss)) as m0. induction nodes as [|n nodes IH]; intros m0 nodes' m C; cbn [check_nodes] in C.
  - injection C as C1 C2. subst. split; [reflexivity|]. intros k n N. destruct k; discriminate N.
  - destruct (check_node find n m0) as [n' m1] eqn:N. destruct (check_nodes find nodes m1) as [r' m2] eqn:R. injection C as C1 C2. subst nodes' m2.
    destruct (IH m1 r' m R) as [A B]. split; [cbn [length]; rewrite A; reflexivity|]. intros [|k] q Q; [|exact (B k q Q)]. cbn [nth_error] in Q |- *. injection Q as Q. subst q.
    exists n'. split; [reflexivity|]. unfold check_node in N. pose proof (noticed_iff n) as NI. destruct (cn_config n) as [l|] eqn:CF.
    + rewrite check_list_spec in N. injection N as N1 N2. subst n'. cbn [cn_name cn_device cn_config]. split; [reflexivity|]. split; [reflexivity|]. split; [discriminate|].
      intros l' E. injection E as E. subst l'. exists (fun f => negb (memS f (prefix n l))). split; [reflexivity|]. intros c I. rewrite NI, negb_true_iff. apply memS_false.
    + injection N as N1 N2. subst n'. repeat split; [intros _; exact CF|]. intros l E. discriminate E.
Qed.

(* ------------------------------------------------------------------ *)
(* Warnings                                                             *)

(* the nodes with a missing template *)
Definition events (nodes : list cnode) : list (cnode * string) :=
  flat_map (fun n => map (fun c => (n, c)) (match cn_config n with Some l => prefix n l | None => [] end)) nodes.

Lemma fold_events : forall n l m, fold_left (fun m c => add_missing n c m) l m = fold_left (fun m e => add_missing (fst e) (snd e) m) (map (fun c => (n, c)) l) m.
Proof. intros n l. induction l as [|c l IH]; intros m; [reflexivity|]. cbn [map fold_left fst snd]. apply IH. Qed.

Lemma check_nodes_events : forall nodes m, snd (check_nodes find nodes m) = fold_left (fun m e => add_missing (fst e) (snd e) m) (events nodes) m.
Proof.
  induction nodes as [|n nodes IH]; intros m; cbn [check_nodes]; [reflexivity|]. specialize (IH (snd (check_node find n m))).
  destruct (check_node find n m) as [n' m1] eqn:N. cbn [snd] in IH. destruct (check_nodes find nodes m1) as [r' m2]. cbn [snd] in IH |- *. rewrite IH.
  unfold events. cbn [flat_map]. rewrite fold_left_app. f_equal. unfold check_node in N. destruct (cn_config n) as [l|].
  - rewrite check_list_spec in N. injection N as N1 N2. subst m1. apply fold_events.
  - injection N as N1 N2. subst. reflexivity.
Qed.

Definition node_list (m : dict cmiss) (id dev : string) : option (list string) :=
  match dget id m with Some x => dget dev (cm_devices x) | None => None end.

Lemma add_missing_get : forall n c m id, dget id (add_missing n c m) =
  if String.eqb id (make_id c) then Some (mk_cm c (dset (cn_device n) (add_node (cn_name n) (match node_list m id (cn_device n) with Some l => l | None => [] end))
     (match dget id m with Some x => cm_devices x | None => [] end))) else dget id m.
Proof.
  intros n c m id. unfold add_missing, node_list. destruct (String.eqb_spec id (make_id c)) as [Q|Q]; [|apply dget_dset_other; exact Q].
  subst id. rewrite dget_dset_same. destruct (dget (make_id c) m); reflexivity.
Qed.

Lemma add_node_in : forall x l y, In y (add_node x l) <-> y = x \/ In y l.
Proof.
  intros x l y. unfold add_node. destruct (memS x l) eqn:M.
  - apply memS_true in M. split; [intros H; right; exact H|intros [H|H]; [subst; exact M|exact H]].
  - rewrite in_app_iff. cbn [In]. split; [intros [H|[H|[]]]; [right; exact H|left; symmetry; exact H]|intros [H|H]; [right; left; symmetry; exact H|left; exact H]].
Qed.

Lemma add_node_ND : forall x l, NoDup l -> NoDup (add_node x l).
Proof.
  intros x l ND. unfold add_node. destruct (memS x l) eqn:M; [exact ND|]. apply memS_false in M. rewrite <- (rev_involutive (l ++ [x])). apply NoDup_rev. rewrite rev_app_distr.
  cbn [rev app]. constructor; [intros K; apply in_rev in K; contradiction|apply NoDup_rev; exact ND].
Qed.

Lemma missing_spec : forall ev, let m := fold_left (fun m e => add_missing (fst e) (snd e) m) ev [] in
  NoDup (dkeys m) /\
  (forall id x, dget id m = Some x -> make_id (cm_item x) = id /\ NoDup (dkeys (cm_devices x)) /\ exists n, In (n, cm_item x) ev) /\
  (forall id dev l, node_list m id dev = Some l -> l <> [] /\ NoDup l /\ forall y, In y l <-> exists n c, In (n, c) ev /\ make_id c = id /\ cn_device n = dev /\ cn_name n = y) /\
  (forall n c, In (n, c) ev -> exists l, node_list m (make_id c) (cn_device n) = Some l).
Proof.
  intros ev. cbv zeta. induction ev as [|[n c] ev IH] using rev_ind.
  - split; [constructor|]. split; [intros id x H; discriminate H|]. split; [intros id dev l H; discriminate H|intros n c []].
  - rewrite fold_left_app. cbn [fold_left fst snd]. set (m := fold_left (fun m e => add_missing (fst e) (snd e) m) ev []) in *. clearbody m. destruct IH as [A [B [C D]]].
    assert (NLE : forall id dev, node_list (add_missing n c m) id dev =
       if String.eqb id (make_id c) && String.eqb dev (cn_device n) then Some (add_node (cn_name n) (match node_list m id (cn_device n) with Some l => l | None => [] end)) else node_list m id dev).
    { intros id dev. unfold node_list at 1. rewrite add_missing_get. destruct (String.eqb id (make_id c)); cbn [andb]; [|reflexivity]. cbn [cm_devices].
      destruct (String.eqb_spec dev (cn_device n)) as [Q|Q]; [subst dev; apply dget_dset_same|]. rewrite dget_dset_other by exact Q. unfold node_list. destruct (dget id m); reflexivity. }
    split; [unfold add_missing; apply NoDup_dset; exact A|]. split; [|split].
    + intros id x H. rewrite add_missing_get in H. destruct (String.eqb_spec id (make_id c)) as [Q|Q].
      * injection H as H. subst x. cbn [cm_item cm_devices]. split; [symmetry; exact Q|]. split.
        -- apply NoDup_dset. destruct (dget id m) as [y|] eqn:Y; [apply (B id y Y)|constructor].
        -- exists n. apply in_or_app. right. left. reflexivity.
      * destruct (B id x H) as [B1 [B2 [n0 B3]]]. split; [exact B1|]. split; [exact B2|]. exists n0. apply in_or_app. left. exact B3.
    + intros id dev l H. rewrite NLE in H. destruct (String.eqb_spec id (make_id c)) as [Q|Q]; [destruct (String.eqb_spec dev (cn_device n)) as [Q2|Q2]|]; cbn [andb] in H.
      * injection H as H. subst id dev. set (l0 := match node_list m (make_id c) (cn_device n) with Some l => l | None => [] end) in *.
        assert (L0 : NoDup l0 /\ forall y, In y l0 <-> exists n0 c0, In (n0, c0) ev /\ make_id c0 = make_id c /\ cn_device n0 = cn_device n /\ cn_name n0 = y).
        { unfold l0. destruct (node_list m (make_id c) (cn_device n)) as [q|] eqn:NL; [destruct (C _ _ q NL) as [_ [C2 C3]]; split; assumption|]. split; [constructor|].
          intros y. split; [intros []|]. intros [n0 [c0 [I [E1 [E2 _]]]]]. destruct (D n0 c0 I) as [q Q]. rewrite E1, E2, NL in Q. discriminate Q. }
        destruct L0 as [L1 L2]. subst l. split; [intros E; assert (K : In (cn_name n) (add_node (cn_name n) l0)) by (apply add_node_in; left; reflexivity); rewrite E in K; destruct K|].
        split; [apply add_node_ND; exact L1|]. intros y. rewrite add_node_in, L2. split.
        -- intros [E|[n0 [c0 [I E]]]]; [exists n, c; split; [apply in_or_app; right; left; reflexivity|repeat split; symmetry; exact E]|].
           exists n0, c0. split; [apply in_or_app; left; exact I|exact E].
        -- intros [n0 [c0 [I E]]]. apply in_app_or in I. destruct I as [I|[I|[]]]; [right; exists n0, c0; split; assumption|]. injection I as I1 I2. subst n0 c0. left. symmetry. apply E.
      * destruct (C id dev l H) as [C1 [C2 C3]]. split; [exact C1|]. split; [exact C2|]. intros y. rewrite C3. split.
        -- intros [n0 [c0 [I E]]]. exists n0, c0. split; [apply in_or_app; left; exact I|exact E].
        -- intros [n0 [c0 [I [E1 [E2 E3]]]]]. apply in_app_or in I. destruct I as [I|[I|[]]]; [exists n0, c0; repeat split; assumption|]. injection I as I1 I2. subst n0 c0.
           exfalso. apply Q2. symmetry. exact E2.
      * destruct (C id dev l H) as [C1 [C2 C3]]. split; [exact C1|]. split; [exact C2|]. intros y. rewrite C3. split.
        -- intros [n0 [c0 [I E]]]. exists n0, c0. split; [apply in_or_app; left; exact I|exact E].
        -- intros [n0 [c0 [I [E1 [E2 E3]]]]]. apply in_app_or in I. destruct I as [I|[I|[]]]; [exists n0, c0; repeat split; assumption|]. injection I as I1 I2. subst n0 c0.
           exfalso. apply Q. symmetry. exact E1.
    + intros n0 c0 I. rewrite NLE. destruct (String.eqb (make_id c0) (make_id c) && String.eqb (cn_device n0) (cn_device n)) eqn:E; [eexists; reflexivity|].
      apply in_app_or in I. destruct I as [I|[I|[]]]; [exact (D n0 c0 I)|]. injection I as I1 I2. subst n0 c0. rewrite !String.eqb_refl in E. discriminate E.
Qed.

Lemma events_iff : forall nodes n c, In (n, c) (events nodes) <-> In n nodes /\ noticed n c.
Proof.
  intros nodes n c. unfold events. rewrite in_flat_map. split.
  - intros [x [I H]]. apply in_map_iff in H. destruct H as [y [E H]]. injection E as E1 E2. subst x y. split; [exact I|]. apply noticed_iff. exact H.
  - intros [I H]. exists n. split; [exact I|]. apply in_map_iff. exists c. split; [reflexivity|]. apply noticed_iff. exact H.
Qed.

(* Warnings: the nodes of a device without a template, for every noticed template (identified with make_id) and device. *)
Theorem check_config_warnings : forall nodes nodes' w, check_config find nodes = (nodes', w) ->
  (forall item dev ns, In (item, dev, ns) w -> (exists n, In n nodes /\ noticed n item) /\ NoDup ns /\ ns <> [] /\
     forall y, In y ns <-> exists n c, In n nodes /\ noticed n c /\ make_id c = make_id item /\ cn_device n = dev /\ cn_name n = y) /\
  (forall n c, In n nodes -> noticed n c -> exists item ns, In (item, cn_device n, ns) w /\ make_id item = make_id c /\ In (cn_name n) ns) /\
  (forall i1 i2 dev n1 n2, In (i1, dev, n1) w -> In (i2, dev, n2) w -> make_id i1 = make_id i2 -> i1 = i2 /\ n1 = n2).
Proof.
  intros nodes nodes' w H. unfold check_config in H. pose proof (check_nodes_events nodes []) as E. destruct (check_nodes find nodes []) as [r m]. cbn [snd] in E. injection H as _ H. subst w.
  destruct (missing_spec (events nodes)) as [A [B [C D]]]. rewrite <- E in A, B, C, D. clear E. unfold warnings.
  assert (W : forall item dev ns, In (item, dev, ns) (flat_map (fun x => map (fun d => (cm_item (snd x), fst d, snd d)) (cm_devices (snd x))) m) <->
     exists x, dget (make_id item) m = Some x /\ cm_item x = item /\ dget dev (cm_devices x) = Some ns).
  { intros item dev ns. rewrite in_flat_map. split.
    - intros [[id x] [I K]]. cbn [snd] in K. apply in_map_iff in K. destruct K as [[dv l] [K1 K2]]. cbn [fst snd] in K1. injection K1 as K1 K3 K4. subst dv l.
      apply (dget_NoDup _ _ _ A) in I. destruct (B id x I) as [B1 [B2 _]]. exists x. split; [rewrite <- K1, B1; exact I|]. split; [exact K1|]. apply dget_NoDup; assumption.
    - intros [x [I [K1 K2]]]. exists (make_id item, x). split; [apply dget_In; exact I|]. cbn [snd]. apply in_map_iff. exists (dev, ns). cbn [fst snd]. split; [rewrite K1; reflexivity|apply dget_In; exact K2]. }
  split; [|split].
  - intros item dev ns I. apply W in I. destruct I as [x [X [I1 I2]]]. destruct (B _ x X) as [_ [_ [n N]]]. rewrite I1 in N. apply events_iff in N.
    split; [exists n; exact N|]. destruct (C (make_id item) dev ns) as [C1 [C2 C3]]; [unfold node_list; rewrite X; exact I2|]. split; [exact C2|]. split; [exact C1|].
    intros y. rewrite C3. split.
    + intros [n0 [c0 [J K]]]. apply events_iff in J. exists n0, c0. destruct J as [J1 J2]. split; [exact J1|]. split; [exact J2|exact K].
    + intros [n0 [c0 [J1 [J2 K]]]]. exists n0, c0. split; [apply events_iff; split; assumption|exact K].
  - intros n c I N. destruct (D n c) as [l L]; [apply events_iff; split; assumption|]. pose proof (C _ _ l L) as [_ [_ C3]]. unfold node_list in L.
    destruct (dget (make_id c) m) as [x|] eqn:X; [|discriminate L]. destruct (B _ x X) as [B1 _]. exists (cm_item x), l. split; [|split; [exact B1|]].
    + apply W. exists x. split; [rewrite B1; exact X|]. split; [reflexivity|exact L].
    + apply C3. exists n, c. split; [apply events_iff; split; assumption|repeat split].
  - intros i1 i2 dev n1 n2 I1 I2 Q. apply W in I1. apply W in I2. destruct I1 as [x [X1 [X2 X3]]]. destruct I2 as [y [Y1 [Y2 Y3]]]. rewrite <- Q, X1 in Y1. injection Y1 as Y1. subst y.
    rewrite X3 in Y3. injection Y3 as Y3. split; [rewrite <- X2; exact Y2|exact Y3].
Qed.
End Spec.

(* Refuted: a missing template is always reported and removed. The check of a node ends with the first template that is found. *)
Theorem check_config_refuted :
  let find s := String.eqb s "a/eos.j2" in
  check_config find [mk_cn "r" "eos" (Some ["a"; "b"])] = ([mk_cn "r" "eos" (Some ["a"; "b"])], []) /\ ~ has_template find (mk_cn "r" "eos" None) "b" /\
  check_config find [mk_cn "r" "eos" (Some ["b"; "a"])] = ([mk_cn "r" "eos" (Some ["a"])], [("b", "eos", ["r"])]).
Proof. split; [reflexivity|]. split; [|reflexivity]. unfold has_template. cbn. intros [H|[H|H]]; discriminate H. Qed.

(* ------------------------------------------------------------------ *)
(* Proxy ARP                                                            *)

Definition proxied (vrfs : dict bool) (i : aintf) : Prop :=
  (ai_type i = "lan" \/ ai_type i = "p2p" \/ ai_type i = "svi") /\ (exists v, ai_vrf i = Some v /\ In (v, true) vrfs) /\ (ai_v4 i = true \/ ai_v6 i = true).

Theorem proxy_arp_exact : forall vrfs nodes,
  length (proxy_arp vrfs nodes) = length nodes /\
  forall k n, nth_error nodes k = Some n -> exists n', nth_error (proxy_arp vrfs nodes) k = Some n' /\
    length (an_intf n') = length (an_intf n) /\
    (forall j i, nth_error (an_intf n) j = Some i -> exists i', nth_error (an_intf n') j = Some i' /\
       ai_type i' = ai_type i /\ ai_vrf i' = ai_vrf i /\ ai_v4 i' = ai_v4 i /\ ai_v6 i' = ai_v6 i /\
       (ai_proxy i' = true <-> ai_proxy i = true \/ proxied vrfs i)) /\
    (an_config n' = true <-> an_config n = true \/ exists i, In i (an_intf n) /\ proxied vrfs i).
Proof.
  intros vrfs nodes.
  assert (PI : forall i, proxy_intf vrfs i = true <-> proxied vrfs i).
  { intros i. unfold proxy_intf, proxied. rewrite !andb_true_iff, orb_true_iff, memS_true. cbn [In].
    assert (T : ("lan" = ai_type i \/ "p2p" = ai_type i \/ "svi" = ai_type i \/ False) <-> (ai_type i = "lan" \/ ai_type i = "p2p" \/ ai_type i = "svi")).
    { split; [intros [H|[H|[H|[]]]]; [left|right; left|right; right]; symmetry; exact H|intros [H|[H|H]]; [left|right; left|right; right; left]; symmetry; exact H]. }
    rewrite T. clear T.
    assert (V : match ai_vrf i with Some v => memS v (map fst (filter snd vrfs)) | None => false end = true <-> exists v, ai_vrf i = Some v /\ In (v, true) vrfs).
    { destruct (ai_vrf i) as [v|]; [|split; [discriminate|intros [v [H _]]; discriminate H]]. rewrite memS_true, in_map_iff. split.
      - intros [[x b] [E I]]. cbn [fst] in E. subst x. apply filter_In in I. destruct I as [I B]. cbn [snd] in B. subst b. exists v. split; [reflexivity|exact I].
      - intros [x [E I]]. injection E as E. subst x. exists (v, true). split; [reflexivity|]. apply filter_In. split; [exact I|reflexivity]. }
    rewrite V. split; [intros [[H1 H2] H3]; repeat split; assumption|intros [H1 [H2 H3]]; repeat split; assumption]. }
  assert (E : proxy_arp vrfs nodes = map (proxy_node vrfs) nodes).
  { unfold proxy_arp. destruct vrfs as [|x vrfs]; [|reflexivity]. clear PI. induction nodes as [|n nodes IH]; [reflexivity|]. cbn [map]. rewrite <- IH. f_equal.
    unfold proxy_node. assert (Z : forall i, proxy_intf [] i = false).
    { intros i. unfold proxy_intf. destruct (ai_vrf i); rewrite andb_false_r; reflexivity. }
    assert (X : existsb (proxy_intf []) (an_intf n) = false) by (induction (an_intf n) as [|i l IHl]; [reflexivity|]; cbn [existsb]; rewrite Z; exact IHl).
    rewrite X, orb_false_r. destruct n as [l c]. cbn [an_intf an_config]. f_equal. clear X. induction l as [|i l IHl]; [reflexivity|]. cbn [map]. rewrite Z, <- IHl. reflexivity. }
  rewrite E. split; [apply map_length|]. intros k n N. exists (proxy_node vrfs n). split; [apply map_nth_error; exact N|]. unfold proxy_node. cbn [an_intf an_config].
  split; [apply map_length|]. split.
  - intros j i I. pose proof (PI i) as P. eexists. split; [apply map_nth_error; exact I|]. destruct (proxy_intf vrfs i).
    + cbn [ai_type ai_vrf ai_v4 ai_v6 ai_proxy]. repeat (split; [reflexivity|]). split; [intros _; right; apply P; reflexivity|reflexivity].
    + repeat (split; [reflexivity|]). split; [intros H; left; exact H|]. intros [H|H]; [exact H|]. apply P in H. discriminate H.
  - rewrite orb_true_iff, existsb_exists. split.
    + intros [H|[i [I H]]]; [left; exact H|right; exists i; split; [exact I|apply PI; exact H]].
    + intros [H|[i [I H]]]; [left; exact H|right; exists i; split; [exact I|apply PI; exact H]].
Qed.

Example x_check :
  check_config (fun s => memS s ["c/r1.j2"])
    [mk_cn "r1" "eos" (Some ["a"; "b"; "c"; "d"]); mk_cn "r2" "eos" (Some ["b"]); mk_cn "r3" "frr" (Some ["b"; "b"]); mk_cn "r4" "frr" None] =
  ([mk_cn "r1" "eos" (Some ["c"; "d"]); mk_cn "r2" "eos" (Some []); mk_cn "r3" "frr" (Some []); mk_cn "r4" "frr" None],
   [("a", "eos", ["r1"]); ("b", "eos", ["r1"; "r2"]); ("b", "frr", ["r3"])]).
Proof. reflexivity. Qed.

Example x_proxy :
  proxy_arp [("red", true); ("blue", false)] [mk_an [mk_ai "lan" (Some "red") true false false; mk_ai "lan" (Some "blue") true true false; mk_ai "stub" (Some "red") true true false] false] =
  [mk_an [mk_ai "lan" (Some "red") true false true; mk_ai "lan" (Some "blue") true true false; mk_ai "stub" (Some "red") true true false] true].
Proof. reflexivity. Qed.

Print Assumptions check_config_kept.
Print Assumptions check_config_warnings.
Print Assumptions check_config_refuted.
Print Assumptions proxy_arp_exact.
