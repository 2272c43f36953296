(* Properties of members of LAG links and of MLAG peer links. *)
From Coq Require Import String Ascii ZArith Lia Bool List.
From Verif Require Import Base Plag_Model.
Import ListNotations.
Local Open Scope string_scope.
Local Open Scope list_scope.

(* ------------------------------------------------------------------ *)
(* C235: members of LAG links                                           *)

(* a member has no LAG attributes (only lag.ifindex in LAG links that are not peer links) and connects two different nodes *)
Definition good_member (peer : bool) (m : pmember) : Prop :=
  (pm_lag m = None \/ peer = false /\ exists ks, pm_lag m = Some ks /\ forall k, In k ks -> k = "ifindex")
  /\ exists a b, pm_nodes m = [a; b] /\ a <> b.

Lemma bad_lag_spec : forall peer m, (forall ks, pm_lag m = Some ks -> NoDup ks) ->
  (bad_lag peer m = false <-> pm_lag m = None \/ peer = false /\ exists ks, pm_lag m = Some ks /\ forall k, In k ks -> k = "ifindex").
Proof.
  intros peer m ND. unfold bad_lag. destruct (pm_lag m) as [ks|]; [|split; [intros _; left; reflexivity|reflexivity]]. specialize (ND ks eq_refl). split.
  - intros H. apply orb_false_iff in H. destruct H as [H1 H2]. right. split; [exact H1|]. exists ks. split; [reflexivity|]. apply Nat.ltb_ge in H2.
    destruct (memS "ifindex" ks) eqn:M.
    + apply memS_true in M. destruct ks as [|x [|y r]]; [destruct M| |cbn [length] in H2; lia]. destruct M as [M|[]]. intros k [K|[]]. congruence.
    + destruct ks as [|x r]; [intros k []|]. cbn [length] in H2. lia.
  - intros [H|[H1 [ks' [H2 H3]]]]; [discriminate H|]. injection H2 as H2. subst ks'. rewrite H1. cbn [orb]. apply Nat.ltb_ge.
    destruct ks as [|x [|y r]].
    + cbn. lia.
    + rewrite (H3 x (or_introl eq_refl)). cbn. lia.
    + exfalso. apply NoDup_cons_iff in ND. destruct ND as [N _]. apply N. rewrite (H3 x (or_introl eq_refl)). rewrite (H3 y (or_intror (or_introl eq_refl))). left. reflexivity.
Qed.

Lemma member_error_none : forall peer idx m, (forall ks, pm_lag m = Some ks -> NoDup ks) -> (member_error peer idx m = None <-> good_member peer m).
Proof.
  intros peer idx m ND. unfold member_error, good_member. rewrite <- (bad_lag_spec peer m ND). destruct (bad_lag peer m).
  - split; [intros H; discriminate H|]. intros [H _]. discriminate H.
  - destruct (pm_nodes m) as [|a [|b [|c r]]]; try (split; [intros H; discriminate H|intros [_ [x [y [H _]]]]; discriminate H]).
    destruct (String.eqb_spec a b) as [E|E].
    + split; [intros H; discriminate H|]. intros [_ [x [y [H N]]]]. injection H as H1 H2. congruence.
    + split; [intros _; split; [reflexivity|exists a, b; auto]|reflexivity].
Qed.

(* all members are returned exactly when all of them are good; otherwise there are no members and one error *)
Theorem lag_members_exact : forall peer ms, (forall m ks, In m ms -> pm_lag m = Some ks -> NoDup ks) ->
  ((forall m, In m ms -> good_member peer m) -> normalized_members peer ms = (ms, []))
  /\ (~ (forall m, In m ms -> good_member peer m) -> exists e, normalized_members peer ms = ([], [e])).
Proof.
  intros peer ms. unfold normalized_members.
  assert (L : forall ms idx acc, (forall m ks, In m ms -> pm_lag m = Some ks -> NoDup ks) ->
    ((forall m, In m ms -> good_member peer m) -> norm_loop peer idx ms acc = (acc ++ ms, []))
    /\ (~ (forall m, In m ms -> good_member peer m) -> exists e, norm_loop peer idx ms acc = ([], [e]))).
  { induction ms0 as [|m r IH]; intros idx acc ND.
    - split; [intros _; cbn [norm_loop]; rewrite app_nil_r; reflexivity|]. intros H. exfalso. apply H. intros m [].
    - cbn [norm_loop]. pose proof (member_error_none peer idx m (fun ks => ND m ks (or_introl eq_refl))) as ME.
      destruct (IH (S idx) (acc ++ [m]) (fun x ks I => ND x ks (or_intror I))) as [A B]. destruct (member_error peer idx m) as [e|].
      + split; [intros H; assert (X : Some e = None) by (apply ME; apply H; left; reflexivity); discriminate X|]. intros _. exists e. reflexivity.
      + assert (G : good_member peer m) by (apply ME; reflexivity). split.
        * intros H. rewrite A by (intros x I; apply H; right; exact I). rewrite <- app_assoc. reflexivity.
        * intros H. apply B. intros Q. apply H. intros x [I|I]; [subst x; exact G|apply Q; exact I]. }
  intros ND. exact (L ms 1%nat [] ND).
Qed.

Example lag_members_case :
  normalized_members false [PM (Some ["ifindex"]) ["a"; "b"]; PM None ["b"; "a"]] = ([PM (Some ["ifindex"]) ["a"; "b"]; PM None ["b"; "a"]], [])
  /\ normalized_members true [PM None ["a"; "b"]; PM (Some ["ifindex"]) ["b"; "a"]] = ([], [PAttr 2])
  /\ normalized_members false [PM None ["a"; "a"]] = ([], [PSelf 1]).
Proof. repeat split; reflexivity. Qed.

(* ------------------------------------------------------------------ *)
(* C236: MLAG peer links                                                *)

Definition joins (m : pmember) (a b : string) : Prop := pm_nodes m = [a; b] \/ pm_nodes m = [b; a].

Lemma others_nil : forall a b m, (exists x y, pm_nodes m = [x; y] /\ x <> y) -> (others [a; b] m = [] <-> joins m a b).
Proof.
  intros a b m [x [y [E N]]]. unfold others, joins. rewrite E. cbn [filter].
  assert (MX : forall n, memS n [a; b] = true <-> n = a \/ n = b).
  { intros n. rewrite memS_true. cbn [In]. split; [intros [H|[H|[]]]; auto|intros [H|H]; auto]. }
  pose proof (MX x) as X. pose proof (MX y) as Y. destruct (memS x [a; b]); cbn [negb].
  - destruct (proj1 X eq_refl) as [Q|Q]; subst x; destruct (memS y [a; b]); cbn [negb].
    + destruct (proj1 Y eq_refl) as [Q|Q]; [congruence|]. subst y. split; [intros _; left; reflexivity|reflexivity].
    + split; [intros H; discriminate H|]. intros [H|H]; injection H as H; [|congruence]. assert (Z : false = true) by (apply Y; right; exact H). discriminate Z.
    + destruct (proj1 Y eq_refl) as [Q|Q]; [|congruence]. subst y. split; [intros _; right; reflexivity|reflexivity].
    + split; [intros H; discriminate H|]. intros [H|H]; injection H as H; [congruence|]. assert (Z : false = true) by (apply Y; left; exact H). discriminate Z.
  - split; [intros H; discriminate H|]. intros H. exfalso. assert (Z : false = true) by (apply X; destruct H as [H|H]; injection H as H1 H2; [left|right]; exact H1). discriminate Z.
Qed.

Lemma more_spec : forall a b ms added, (forall m, In m ms -> exists x y, pm_nodes m = [x; y] /\ x <> y) ->
  ((forall m, In m ms -> joins m a b) -> more_members [a; b] ms added = (true, [], added ++ ms))
  /\ (~ (forall m, In m ms -> joins m a b) -> fst (fst (more_members [a; b] ms added)) = false /\ snd (fst (more_members [a; b] ms added)) <> []).
Proof.
  intros a b. induction ms as [|m r IH]; intros added W.
  - split; [intros _; cbn [more_members]; rewrite app_nil_r; reflexivity|]. intros H. exfalso. apply H. intros m [].
  - cbn [more_members]. pose proof (others_nil a b m (W m (or_introl eq_refl))) as ON. destruct (IH (added ++ [m]) (fun x I => W x (or_intror I))) as [A B].
    destruct (others [a; b] m) as [|o os].
    + assert (J : joins m a b) by (apply ON; reflexivity). split.
      * intros H. rewrite A by (intros x I; apply H; right; exact I). rewrite <- app_assoc. reflexivity.
      * intros H. apply B. intros Q. apply H. intros x [I|I]; [subst x; exact J|apply Q; exact I].
    + split; [intros H; assert (X : o :: os = []) by (apply ON; apply H; left; reflexivity); discriminate X|]. intros _. split; [reflexivity|discriminate].
Qed.

(* a usable peer link between nodes a and b *)
Definition peer_link (dev : string -> string) (mlag : string -> bool) (ms : list pmember) (a b : string) : Prop :=
  (exists m r, ms = m :: r /\ pm_nodes m = [a; b]) /\ a <> b /\ dev a = dev b /\ mlag a = true /\ mlag b = true
  /\ forall m, In m ms -> pm_lag m = None /\ joins m a b.

Lemma joins_good : forall m a b, pm_lag m = None -> a <> b -> joins m a b -> good_member true m.
Proof. intros m a b L N [J|J]; (split; [left; exact L|]); [exists a, b|exists b, a]; split; congruence. Qed.

(* a usable peer link pairs its nodes and adds its other members as links; any other nonempty peer link is reported *)
Theorem peer_links_exact : forall dev mlag ms pairs, (forall m ks, In m ms -> pm_lag m = Some ks -> NoDup ks) ->
  let r := create_peer_links dev mlag ms pairs in
  (forall a b, peer_link dev mlag ms a b -> r = PR true [] (dset b a (dset a b pairs)) (tl ms))
  /\ (ms <> [] -> (forall a b, ~ peer_link dev mlag ms a b) -> pr_errs r <> [])
  /\ (ms = [] -> r = PR true [] pairs []).
Proof.
  intros dev mlag ms pairs ND r. subst r. unfold create_peer_links. cbv zeta. destruct (lag_members_exact true ms ND) as [NG NB]. split; [|split].
  - intros a b [[m [r [E M]]] [N [D [Ma [Mb J]]]]].
    assert (G : forall x, In x ms -> good_member true x) by (intros x I; destruct (J x I) as [J1 J2]; exact (joins_good x a b J1 N J2)).
    rewrite (NG G). cbn [fst snd]. rewrite E. rewrite M. rewrite D, String.eqb_refl, Ma, Mb. cbn [negb].
    destruct (more_spec a b r []) as [A _].
    { intros x I. assert (I' : In x ms) by (rewrite E; right; exact I). exact (proj2 (G x I')). }
    rewrite A; [reflexivity|]. intros x I. apply J. rewrite E. right. exact I.
  - intros NE NP.
    destruct (snd (normalized_members true ms)) as [|e er] eqn:S.
    + destruct ms as [|m r]; [contradiction NE; reflexivity|].
      assert (DN : (forall x, In x (m :: r) -> good_member true x) \/ ~ (forall x, In x (m :: r) -> good_member true x)).
      { assert (GD : forall x, In x (m :: r) -> good_member true x \/ ~ good_member true x).
        { intros x I. pose proof (member_error_none true 0 x (fun ks => ND x ks I)) as ME. destruct (member_error true 0 x); [right; intros Q; apply ME in Q; discriminate Q|left; apply ME; reflexivity]. }
        clear - GD. induction (m :: r) as [|x l IH]; [left; intros x []|]. destruct (GD x (or_introl eq_refl)) as [X|X]; [|right; intros Q; apply X; apply Q; left; reflexivity].
        destruct (IH (fun y I => GD y (or_intror I))) as [Y|Y]; [left; intros y [I|I]; [subst y; exact X|apply Y; exact I]|right; intros Q; apply Y; intros y I; apply Q; right; exact I]. }
      destruct DN as [G|B]; [|destruct (NB B) as [e E]; rewrite E in S; discriminate S].
      rewrite (NG G). cbn [fst snd]. destruct (G m (or_introl eq_refl)) as [LM [a [b [M N]]]]. rewrite M.
      destruct (String.eqb_spec (dev a) (dev b)) as [D|D]; cbn [negb]; [|cbn [pr_errs]; discriminate].
      destruct (mlag a) eqn:Ma; cbn [negb]; [|cbn [pr_errs]; discriminate]. destruct (mlag b) eqn:Mb; cbn [negb]; [|cbn [pr_errs]; discriminate].
      cbn [pr_errs app]. destruct (more_spec a b r []) as [A B]; [intros x I; exact (proj2 (G x (or_intror I)))|].
      apply B. intros Q. apply (NP a b). split; [exists m, r; auto|]. split; [exact N|]. split; [exact D|]. split; [exact Ma|]. split; [exact Mb|].
      intros x I. split; [destruct (proj1 (G x I)) as [X|[X _]]; [exact X|discriminate X]|]. destruct I as [I|I]; [subst x; left; exact M|apply Q; exact I].
    + destruct (fst (normalized_members true ms)) as [|m r]; [cbn [pr_errs]; discriminate|]. destruct (pm_nodes m) as [|a [|b [|c l]]]; try (cbn [pr_errs]; discriminate).
      destruct (String.eqb (dev a) (dev b)); cbn [negb]; [|cbn [pr_errs]; discriminate]. destruct (mlag a); cbn [negb]; [|cbn [pr_errs]; discriminate]. destruct (mlag b); cbn [negb]; cbn [pr_errs]; discriminate.
  - intros E. subst ms. reflexivity.
Qed.

(* the result is true after an error in a member *)
Theorem peer_link_result_refuted : exists dev mlag ms pairs,
  pr_ok (create_peer_links dev mlag ms pairs) = true /\ pr_errs (create_peer_links dev mlag ms pairs) = [PSelf 1].
Proof. exists (fun _ => "eos"), (fun _ => true), [PM None ["a"; "a"]], []. split; reflexivity. Qed.

(* a node in two peer links: its first peer still has it as a peer *)
Theorem peer_pairs_symmetric_refuted : exists dev mlag links,
  (forall l, In l links -> pr_errs (create_peer_links dev mlag l []) = []) /\
  dget "b" (all_pairs dev mlag links []) = Some "a" /\ dget "a" (all_pairs dev mlag links []) = Some "c".
Proof.
  exists (fun _ => "eos"), (fun _ => true), [[PM None ["a"; "b"]]; [PM None ["a"; "c"]]]. split; [|split; reflexivity].
  intros l [L|[L|[]]]; subst l; reflexivity.
Qed.

(* peer links without common nodes: pairs are exactly the pairs of nodes of the peer links, in both directions *)
Theorem peer_pairs_exact : forall dev mlag links ends,
  Forall2 (fun l p => peer_link dev mlag l (fst p) (snd p)) links ends -> NoDup (flat_map (fun p => [fst p; snd p]) ends) ->
  forall x y, dget x (all_pairs dev mlag links []) = Some y <-> In (x, y) ends \/ In (y, x) ends.
Proof.
  intros dev mlag links ends F ND x y.
  assert (L : forall links ends, Forall2 (fun l p => peer_link dev mlag l (fst p) (snd p)) links ends -> NoDup (flat_map (fun p => [fst p; snd p]) ends) ->
    forall pairs, (forall n, In n (flat_map (fun p => [fst p; snd p]) ends) -> dget n pairs = None) ->
    (dget x (all_pairs dev mlag links pairs) = Some y <-> dget x pairs = Some y \/ In (x, y) ends \/ In (y, x) ends)).
  { clear. intros links ends F. induction F as [|l [a b] links ends P F IH]; intros ND pairs FR.
    - cbn [all_pairs]. split; [intros H; left; exact H|]. intros [H|[[]|[]]]. exact H.
    - cbn [flat_map fst snd app] in ND, FR. cbn [fst snd] in P. apply NoDup_cons_iff in ND. destruct ND as [NA ND]. apply NoDup_cons_iff in ND. destruct ND as [NB ND].
      assert (NAB : a <> b) by (intros Q; apply NA; left; symmetry; exact Q).
      assert (LN : forall m ks, In m l -> pm_lag m = Some ks -> NoDup ks).
      { intros m ks I Q. destruct P as [_ [_ [_ [_ [_ J]]]]]. destruct (J m I) as [J1 _]. congruence. }
      cbn [all_pairs]. cbv zeta. rewrite (proj1 (peer_links_exact dev mlag l pairs LN) a b P). cbn [pr_ok pr_pairs]. rewrite (IH ND).
      + assert (G : dget x (dset b a (dset a b pairs)) = Some y <-> dget x pairs = Some y \/ (x, y) = (a, b) \/ (y, x) = (a, b)).
        { pose proof (FR a (or_introl eq_refl)) as FA. pose proof (FR b (or_intror (or_introl eq_refl))) as FB.
          destruct (String.string_dec x b) as [E|E].
          - subst x. rewrite dget_dset_same. split; [intros Q; injection Q as Q; subst y; right; right; reflexivity|]. intros [Q|[Q|Q]]; [congruence|injection Q as Q1 Q2; congruence|injection Q as Q; congruence].
          - rewrite dget_dset_other by exact E. destruct (String.string_dec x a) as [E2|E2].
            + subst x. rewrite dget_dset_same. split; [intros Q; injection Q as Q; subst y; right; left; reflexivity|]. intros [Q|[Q|Q]]; [congruence|injection Q as Q; congruence|injection Q as Q1 Q2; congruence].
            + rewrite dget_dset_other by exact E2. split; [intros Q; left; exact Q|]. intros [Q|[Q|Q]]; [exact Q|injection Q as Q1 Q2; congruence|injection Q as Q1 Q2; congruence]. }
        rewrite G. cbn [In]. split.
        * intros [[H|[H|H]]|[H|H]]; [left; exact H|right; left; left; symmetry; exact H|right; right; left; symmetry; exact H|right; left; right; exact H|right; right; right; exact H].
        * intros [H|[[H|H]|[H|H]]]; [left; left; exact H|left; right; left; symmetry; exact H|right; left; exact H|left; right; right; symmetry; exact H|right; right; exact H].
      + intros n I. rewrite dget_dset_other by (intros Q; subst n; contradiction). rewrite dget_dset_other by (intros Q; subst n; apply NA; right; exact I). apply FR. right. right. exact I. }
  rewrite (L links ends F ND []); [|reflexivity]. split; [intros [H|H]; [discriminate H|exact H]|intros H; right; exact H].
Qed.

Lemma norm_sub : forall peer ms idx acc m, In m (fst (norm_loop peer idx ms acc)) -> In m acc \/ In m ms /\ exists a b, pm_nodes m = [a; b] /\ a <> b.
Proof.
  intros peer. induction ms as [|j r IH]; intros idx acc m I; cbn [norm_loop] in I; [left; exact I|].
  destruct (member_error peer idx j) as [e|] eqn:E; [destruct I|]. apply IH in I. destruct I as [I|[I N]]; [|right; split; [right; exact I|exact N]].
  apply in_app_iff in I. destruct I as [I|[I|[]]]; [left; exact I|]. subst j. right. split; [left; reflexivity|]. unfold member_error in E.
  destruct (bad_lag peer m); [discriminate E|]. destruct (pm_nodes m) as [|a [|b [|c l]]]; try discriminate E. destruct (String.eqb_spec a b) as [Q|Q]; [discriminate E|]. exists a, b. auto.
Qed.

(* also with errors in peer links, all pairs are different nodes of one device type with MLAG support that are connected by a member *)
Theorem peer_pairs_safe : forall dev mlag links x y, dget x (all_pairs dev mlag links []) = Some y ->
  x <> y /\ dev x = dev y /\ mlag x = true /\ mlag y = true /\ exists l m, In l links /\ In m l /\ joins m x y.
Proof.
  intros dev mlag links x y.
  assert (ONE : forall l pairs, dget x (pr_pairs (create_peer_links dev mlag l pairs)) = Some y -> dget x pairs = Some y \/
    x <> y /\ dev x = dev y /\ mlag x = true /\ mlag y = true /\ exists m, In m l /\ joins m x y).
  { intros l pairs. unfold create_peer_links. cbv zeta. pose proof (norm_sub true l 1 []) as NS. unfold normalized_members.
    destruct (fst (norm_loop true 1 l [])) as [|m r]; [intros H; left; exact H|]. destruct (NS m (or_introl eq_refl)) as [[]|[I [a [b [M N]]]]]. rewrite M.
    destruct (String.eqb_spec (dev a) (dev b)) as [D|D]; cbn [negb]; [|intros H; left; exact H].
    destruct (mlag a) eqn:Ma; cbn [negb]; [|intros H; left; exact H]. destruct (mlag b) eqn:Mb; cbn [negb]; [|intros H; left; exact H]. cbn [pr_pairs].
    destruct (String.string_dec x b) as [E|E].
    - subst x. rewrite dget_dset_same. intros H. injection H as H. subst y. right. split; [congruence|]. split; [congruence|]. split; [exact Mb|]. split; [exact Ma|]. exists m. split; [exact I|right; exact M].
    - rewrite dget_dset_other by exact E. destruct (String.string_dec x a) as [E2|E2].
      + subst x. rewrite dget_dset_same. intros H. injection H as H. subst y. right. split; [congruence|]. split; [congruence|]. split; [exact Ma|]. split; [exact Mb|]. exists m. split; [exact I|left; exact M].
      + rewrite dget_dset_other by exact E2. intros H. left. exact H. }
  assert (ALL : forall links pairs, dget x (all_pairs dev mlag links pairs) = Some y -> dget x pairs = Some y \/
    x <> y /\ dev x = dev y /\ mlag x = true /\ mlag y = true /\ exists l m, In l links /\ In m l /\ joins m x y).
  { induction links0 as [|l r IH]; intros pairs H; [left; exact H|]. cbn [all_pairs] in H. cbv zeta in H.
    assert (C : dget x (pr_pairs (create_peer_links dev mlag l pairs)) = Some y \/ x <> y /\ dev x = dev y /\ mlag x = true /\ mlag y = true /\ exists l m, In l r /\ In m l /\ joins m x y).
    { destruct (pr_ok (create_peer_links dev mlag l pairs)); [apply IH; exact H|left; exact H]. }
    destruct C as [C|[C1 [C2 [C3 [C4 [k [m [K [I J]]]]]]]]].
    - apply ONE in C. destruct C as [C|[C1 [C2 [C3 [C4 [m [I J]]]]]]]; [left; exact C|right]. split; [exact C1|]. split; [exact C2|]. split; [exact C3|]. split; [exact C4|].
      exists l, m. split; [left; reflexivity|]. split; [exact I|exact J].
    - right. split; [exact C1|]. split; [exact C2|]. split; [exact C3|]. split; [exact C4|]. exists k, m. split; [right; exact K|]. split; [exact I|exact J]. }
  intros H. destruct (ALL links [] H) as [Q|Q]; [discriminate Q|exact Q].
Qed.

Example peer_links_case : let l1 := [PM None ["a"; "b"]; PM None ["b"; "a"]] in let l2 := [PM None ["c"; "d"]] in
  all_pairs (fun _ => "eos") (fun _ => true) [l1; l2] [] = [("a", "b"); ("b", "a"); ("c", "d"); ("d", "c")]
  /\ create_peer_links (fun _ => "eos") (fun _ => true) [PM None ["a"; "b"]; PM None ["b"; "c"]] [] = PR false [PPair ["c"]] [("a", "b"); ("b", "a")] []
  /\ Forall2 (fun l p => peer_link (fun _ => "eos") (fun _ => true) l (fst p) (snd p)) [l1; l2] [("a", "b"); ("c", "d")].
Proof.
  cbv zeta. split; [reflexivity|]. split; [reflexivity|]. constructor; [|constructor; [|constructor]]; cbn [fst snd]; unfold peer_link.
  - split; [exists (PM None ["a"; "b"]), [PM None ["b"; "a"]]; split; reflexivity|]. split; [discriminate|]. split; [reflexivity|]. split; [reflexivity|]. split; [reflexivity|].
    intros m [H|[H|[]]]; subst m; (split; [reflexivity|]); [left|right]; reflexivity.
  - split; [exists (PM None ["c"; "d"]), []; split; reflexivity|]. split; [discriminate|]. split; [reflexivity|]. split; [reflexivity|]. split; [reflexivity|].
    intros m [H|[]]; subst m; split; [reflexivity|]. left. reflexivity.
Qed.

Print Assumptions lag_members_exact.
Print Assumptions peer_links_exact.
Print Assumptions peer_link_result_refuted.
Print Assumptions peer_pairs_symmetric_refuted.
Print Assumptions peer_pairs_exact.
Print Assumptions peer_pairs_safe.
