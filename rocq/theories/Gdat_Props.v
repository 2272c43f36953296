(* Properties of the check of group data. *)
From Coq Require Import String Ascii ZArith Lia Bool List.
From Verif Require Import Base Box_Model Dev_Model Groups_Model Ndev_Model Gdat_Model Box_Props Ndev_Props Dfl_Props Text_Props.
Import ListNotations.
Local Open Scope string_scope.
Local Open Scope list_scope.

(* ------------------------------------------------------------------ *)
(* C227: attributes of groups                                           *)

Definition moved (ga : list string) (g : dict val) (k : string) : Prop := k <> "node_data" /\ ~ In k ga /\ In k (dkeys g).

Lemma rdd_set_nd : forall d g, rdd "node_data" (dset "node_data" (VDict d) g) = d.
Proof. intros d g. unfold rdd, rd. rewrite dget_dset_same. reflexivity. Qed.

Lemma rdd_get : forall k g g', dget k g' = dget k g -> rdd k g' = rdd k g.
Proof. intros k g g' E. unfold rdd, rd. rewrite E. reflexivity. Qed.

Lemma move_get : forall ga ks g, NoDup ks -> (In "node_data" ga \/ ~ In "node_data" ks) ->
  (forall k, In k ks -> In k (dkeys g)) ->
  let g' := fold_left (move_one ga) ks g in
  (forall k, k <> "node_data" -> In k ks -> ~ In k ga -> dget k g' = None /\ dget k (rdd "node_data" g') = dget k g)
  /\ (forall k, k <> "node_data" -> (~ In k ks \/ In k ga) -> dget k g' = dget k g)
  /\ (forall k, k = "node_data" \/ ~ In k ks \/ In k ga -> dget k (rdd "node_data" g') = dget k (rdd "node_data" g))
  /\ ((forall k, In k ks -> k = "node_data" \/ In k ga) -> dget "node_data" g' = dget "node_data" g)
  /\ ((exists k, In k ks /\ k <> "node_data" /\ ~ In k ga) -> exists d, dget "node_data" g' = Some (VDict d)).
Proof.
  induction ks as [|j ks IH]; intros g ND NA HK; cbv zeta.
  { cbn [fold_left]. split; [intros k _ []|]. split; [reflexivity|]. split; [reflexivity|]. split; [reflexivity|]. intros [k [[] _]]. }
  apply NoDup_cons_iff in ND. destruct ND as [NJ ND]. cbn [fold_left]. unfold move_one at 2 4 6 8 10 12. destruct (memS j ga) eqn:MJ.
  - apply memS_true in MJ.
    destruct (IH g ND) as [A [B [C [D E]]]]; [destruct NA as [NA|NA]; [left; exact NA|right; intros Q; apply NA; right; exact Q]|intros k K; apply HK; right; exact K|].
    split; [|split; [|split; [|split]]].
    + intros k N [K|K] G; [subst k; contradiction|exact (A k N K G)].
    + intros k N [K|K]; [apply B; [exact N|left; intros Q; apply K; right; exact Q]|apply B; [exact N|right; exact K]].
    + intros k [K|[K|K]]; apply C; [left; exact K|right; left; intros Q; apply K; right; exact Q|right; right; exact K].
    + intros H. apply D. intros k K. apply H. right. exact K.
    + intros [k [[K|K] [N G]]]; [subst k; contradiction|]. apply E. exists k. auto.
  - apply memS_false in MJ. assert (JN : j <> "node_data").
    { intros Q. subst j. destruct NA as [NA|NA]; [contradiction|]. apply NA. left. reflexivity. }
    set (g1 := dpop j (dset "node_data" (VDict (dset j (rd j g) (rdd "node_data" g))) g)).
    assert (G1 : forall k, k <> j -> k <> "node_data" -> dget k g1 = dget k g).
    { intros k K N. unfold g1. rewrite dget_dpop_other by exact K. apply dget_dset_other. exact N. }
    assert (GN : dget "node_data" g1 = Some (VDict (dset j (rd j g) (rdd "node_data" g)))).
    { unfold g1. rewrite dget_dpop_other by congruence. apply dget_dset_same. }
    assert (GJ : dget j g1 = None) by (unfold g1; apply dget_dpop_same).
    assert (R1 : rdd "node_data" g1 = dset j (rd j g) (rdd "node_data" g)) by (unfold rdd at 1, rd at 1; rewrite GN; reflexivity).
    assert (RJ : Some (rd j g) = dget j g).
    { unfold rd. destruct (dget j g) as [v|] eqn:G; [reflexivity|]. exfalso. apply (proj1 (dget_None _ _) G). apply HK. left. reflexivity. }
    destruct (IH g1 ND) as [A [B [C [D E]]]]; [destruct NA as [NA|NA]; [left; exact NA|right; intros Q; apply NA; right; exact Q]| |].
    { intros k K. destruct (String.string_dec k "node_data") as [Q|Q].
      - subst k. apply dmem_true. unfold dmem. rewrite GN. reflexivity.
      - apply dmem_true. unfold dmem. rewrite G1; [|intros X; subst k; contradiction|exact Q]. apply dmem_true. apply HK. right. exact K. }
    split; [|split; [|split; [|split]]].
    + intros k N K G. destruct (String.string_dec k j) as [KJ|KJ].
      * subst k. split; [rewrite B; [exact GJ|exact N|left; exact NJ]|]. rewrite C by (right; left; exact NJ). rewrite R1, dget_dset_same. exact RJ.
      * destruct K as [K|K]; [congruence|]. destruct (A k N K G) as [A1 A2]. split; [exact A1|]. rewrite A2. apply G1; assumption.
    + intros k N K. assert (KJ : k <> j) by (intros Q; subst k; destruct K as [K|K]; [apply K; left; reflexivity|contradiction]).
      rewrite B; [apply G1; assumption|exact N|]. destruct K as [K|K]; [left; intros Q; apply K; right; exact Q|right; exact K].
    + intros k K. assert (KJ : k <> j) by (intros Q; subst k; destruct K as [K|[K|K]]; [contradiction|apply K; left; reflexivity|contradiction]).
      rewrite C; [rewrite R1; apply dget_dset_other; exact KJ|]. destruct K as [K|[K|K]]; [left; exact K|right; left; intros Q; apply K; right; exact Q|right; right; exact K].
    + intros H. destruct (H j (or_introl eq_refl)) as [Q|Q]; contradiction.
    + intros _. destruct (in_dec String.string_dec "node_data" ks) as [I|I].
      * destruct (existsb (fun k => negb (String.eqb k "node_data") && negb (memS k ga)) ks) eqn:X.
        -- apply existsb_exists in X. destruct X as [k [K X]]. apply andb_true_iff in X. destruct X as [X1 X2]. apply negb_true_iff in X1, X2.
           apply E. exists k. split; [exact K|]. split; [apply String.eqb_neq; exact X1|apply memS_false; exact X2].
        -- exists (dset j (rd j g) (rdd "node_data" g)). rewrite D; [exact GN|]. intros k K.
           destruct (String.string_dec k "node_data") as [Q|Q]; [left; exact Q|right]. destruct (memS k ga) eqn:M; [apply memS_true; exact M|].
           exfalso. assert (Y : existsb (fun k => negb (String.eqb k "node_data") && negb (memS k ga)) ks = true).
           { apply existsb_exists. exists k. split; [exact K|]. apply String.eqb_neq in Q. rewrite Q, M. reflexivity. }
           congruence.
      * destruct (existsb (fun k => negb (memS k ga)) ks) eqn:X.
        -- apply existsb_exists in X. destruct X as [k [K X]]. apply negb_true_iff in X. apply E. exists k. split; [exact K|]. split; [intros Q; subst k; contradiction|apply memS_false; exact X].
        -- exists (dset j (rd j g) (rdd "node_data" g)). rewrite D; [exact GN|]. intros k K. right. destruct (memS k ga) eqn:M; [apply memS_true; exact M|].
           exfalso. assert (Y : existsb (fun k => negb (memS k ga)) ks = true) by (apply existsb_exists; exists k; split; [exact K|rewrite M; reflexivity]). congruence.
Qed.

Theorem group_attributes_moved : forall ga g, NoDup (dkeys g) -> (In "node_data" ga \/ ~ In "node_data" (dkeys g)) ->
  let g' := move_attributes ga g in
  (forall k, moved ga g k -> dget k g' = None /\ dget k (rdd "node_data" g') = dget k g)
  /\ (forall k, ~ moved ga g k -> k <> "node_data" -> dget k g' = dget k g)
  /\ (forall k, ~ moved ga g k -> dget k (rdd "node_data" g') = dget k (rdd "node_data" g))
  /\ (dget "node_data" g' = dget "node_data" g \/ (exists k, moved ga g k) /\ exists d, dget "node_data" g' = Some (VDict d)).
Proof.
  intros ga g ND NA g'. destruct (move_get ga (dkeys g) g ND NA (fun k H => H)) as [A [B [C [D E]]]]. fold (move_attributes ga g) in A, B, C, D, E. fold g' in A, B, C, D, E.
  assert (NM : forall k, ~ moved ga g k -> k = "node_data" \/ ~ In k (dkeys g) \/ In k ga).
  { intros k N. destruct (String.string_dec k "node_data") as [Q|Q]; [left; exact Q|right].
    destruct (in_dec String.string_dec k (dkeys g)) as [I|I]; [right|left; exact I]. destruct (in_dec String.string_dec k ga) as [J|J]; [exact J|].
    exfalso. apply N. split; [exact Q|]. split; assumption. }
  split; [|split; [|split]].
  - intros k [N [K I]]. exact (A k N I K).
  - intros k N K. apply B; [exact K|]. destruct (NM k N) as [Q|[Q|Q]]; [contradiction|left; exact Q|right; exact Q].
  - intros k N. apply C. apply NM. exact N.
  - destruct (existsb (fun k => negb (String.eqb k "node_data") && negb (memS k ga)) (dkeys g)) eqn:X.
    + right. apply existsb_exists in X. destruct X as [k [K X]]. apply andb_true_iff in X. destruct X as [X1 X2]. apply negb_true_iff in X1, X2.
      apply String.eqb_neq in X1. apply memS_false in X2. split; [exists k; split; [exact X1|split; [exact X2|exact K]]|]. apply E. exists k. auto.
    + left. apply D. intros k K. destruct (String.string_dec k "node_data") as [Q|Q]; [left; exact Q|right]. destruct (memS k ga) eqn:M; [apply memS_true; exact M|].
      exfalso. assert (Y : existsb (fun k => negb (String.eqb k "node_data") && negb (memS k ga)) (dkeys g) = true).
      { apply existsb_exists. exists k. split; [exact K|]. apply String.eqb_neq in Q. rewrite Q, M. reflexivity. }
      congruence.
Qed.

(* settings of one module in node_data and in the group are not merged: the group replaces node_data *)
Theorem group_data_merged_refuted : exists ga g,
  lookup ["node_data"; "bgp"; "as"] (VDict g) = Some (VInt 65000) /\ lookup ["bgp"; "rr"] (VDict g) = Some (VBool true)
  /\ lookup ["node_data"; "bgp"; "as"] (VDict (move_attributes ga g)) = None.
Proof.
  exists ["members"; "node_data"], [("node_data", VDict [("bgp", VDict [("as", VInt 65000)])]); ("bgp", VDict [("rr", VBool true)])]. repeat split; reflexivity.
Qed.

Definition ex_group : dict val := [("members", VList [VStr "a"]); ("node_data", VDict [("x", VInt 1); ("bgp", VNull)]); ("bgp", VDict []); ("mtu", VInt 1500)].
Example group_moved_case : move_attributes ["members"; "node_data"] ex_group =
  [("members", VList [VStr "a"]); ("node_data", VDict [("x", VInt 1); ("bgp", VDict []); ("mtu", VInt 1500)])] /\ NoDup (dkeys ex_group).
Proof. split; [reflexivity|]. repeat constructor; cbn; intuition discriminate. Qed.

(* ------------------------------------------------------------------ *)
(* C228: checks of groups                                               *)

Section GroupChecks.
Variable attrs : string -> list string.
Variable objects : string -> list string.
Variable check : string -> dict val -> list string.

Definition type_is (g : dict val) (t : string) : Prop := dget "type" g = Some (VStr t) \/ t = "node" /\ forall s, dget "type" g <> Some (VStr s).

Lemma type_spec : forall g t, group_type g = t <-> type_is g t.
Proof.
  intros g t. unfold group_type, type_is. destruct (dget "type" g) as [v|].
  - destruct v as [|b|z|s|l|d]; try (split; [intros E; right; split; [symmetry; exact E|intros s Q; discriminate Q]|intros [Q|[Q _]]; [discriminate Q|symmetry; exact Q]]).
    split; [intros E; left; rewrite E; reflexivity|]. intros [Q|[_ Q]]; [injection Q as Q; exact Q|exfalso; exact (Q s eq_refl)].
  - split; [intros E; right; split; [symmetry; exact E|intros s Q; discriminate Q]|intros [Q|[Q _]]; [discriminate Q|symmetry; exact Q]].
Qed.

(* a group without errors of its own *)
Definition sound_group (name : string) (g : dict val) : Prop :=
  (type_is g "node" \/ type_is g "vlan" \/ type_is g "vrf") /\ check name g = []
  /\ (name = "all" -> forall m, dget "members" g = Some m -> truthy m = false)
  /\ (type_is g "node" -> lookup ["node_data"; "module"] (VDict g) = None /\ lookup ["node_data"; "device"] (VDict g) = None).

Lemma lookup_nd : forall g k, lookup ["node_data"; k] (VDict g) = None <-> dmem k (rdd "node_data" g) = false \/ dmem "node_data" g = false.
Proof.
  intros g k. unfold dmem, rdd, rd. cbn [lookup]. destruct (dget "node_data" g) as [v|]; [|split; [intros _; right; reflexivity|reflexivity]].
  destruct v as [|b|z|s|l|d]; cbn [entries dget]; try (split; [intros _; left; reflexivity|reflexivity]).
  destruct (dget k d) as [x|]; [|split; [intros _; left; reflexivity|reflexivity]]. destruct x; split; intros H; try discriminate H; destruct H as [H|H]; discriminate H.
Qed.

Lemma errors_nil : forall name g, group_errors check name g = [] <-> sound_group name g.
Proof.
  intros name g. unfold group_errors, sound_group. rewrite <- !type_spec.
  assert (APP : forall (a b : list gerr), a ++ b = [] <-> a = [] /\ b = []).
  { intros a b. split; [apply app_eq_nil|intros [A B]; rewrite A, B; reflexivity]. }
  rewrite !APP.
  assert (T : (if memS (group_type g) ["node"; "vlan"; "vrf"] then [] else [GType name]) = [] <-> group_type g = "node" \/ group_type g = "vlan" \/ group_type g = "vrf").
  { destruct (memS (group_type g) ["node"; "vlan"; "vrf"]) eqn:M.
    - apply memS_true in M. cbn [In] in M. split; [intros _|reflexivity]. destruct M as [M|[M|[M|[]]]]; rewrite <- M; auto.
    - apply memS_false in M. split; [intros H; discriminate H|]. intros H. exfalso. apply M. cbn [In]. destruct H as [H|[H|H]]; rewrite H; auto. }
  assert (C : map (GCheck name) (check name g) = [] <-> check name g = []) by (destruct (check name g); split; intros H; try reflexivity; discriminate H).
  assert (A : (if String.eqb name "all" && truthy (rd "members" (with_members g)) then [GAll name] else []) = []
              <-> (name = "all" -> forall m, dget "members" g = Some m -> truthy m = false)).
  { destruct (String.eqb_spec name "all") as [E|E]; cbn [andb]; [|split; [intros _ Q; contradiction|reflexivity]].
    unfold with_members, dmem, rd. destruct (dget "members" g) as [m|] eqn:G.
    - rewrite G. destruct (truthy m) eqn:TM.
      + split; [intros H; discriminate H|]. intros H. rewrite (H E m eq_refl) in TM. discriminate TM.
      + split; [intros _ _ x Q; injection Q as Q; subst x; exact TM|reflexivity].
    - rewrite dget_dset_same. cbn [truthy]. split; [intros _ _ x Q; discriminate Q|reflexivity]. }
  assert (D : (if dmem "node_data" g && String.eqb (group_type g) "node" then
        flat_map (fun k => if dmem k (rdd "node_data" g) then [GData name k] else []) ["module"; "device"] else []) = []
      <-> (group_type g = "node" -> lookup ["node_data"; "module"] (VDict g) = None /\ lookup ["node_data"; "device"] (VDict g) = None)).
  { rewrite !lookup_nd. destruct (String.eqb_spec (group_type g) "node") as [E|E]; [|rewrite andb_false_r; split; [intros _ Q; contradiction|reflexivity]].
    rewrite andb_true_r. destruct (dmem "node_data" g); [|split; [intros _ _; split; right; reflexivity|reflexivity]]. cbn [flat_map].
    destruct (dmem "module" (rdd "node_data" g)); destruct (dmem "device" (rdd "node_data" g)); cbn [app]; split; intros H; try discriminate H; try reflexivity;
      try (intros _; split; left; reflexivity); destruct (H E) as [H1 H2]; destruct H1 as [H1|H1]; destruct H2 as [H2|H2]; discriminate. }
  rewrite T, C, A, D. reflexivity.
Qed.

Definition member (g : dict val) (n : string) : Prop := exists l, dget "members" g = Some (VList l) /\ In (VStr n) l.

Lemma member_spec : forall g n, In n (member_names g) <-> member g n.
Proof.
  intros g n. unfold member_names, member. destruct (dget "members" g) as [v|]; [|split; [intros []|intros [l [E _]]; discriminate E]].
  destruct v as [|b|z|s|l|d]; try (split; [intros []|intros [l [E _]]; discriminate E]). rewrite in_flat_map. split.
  - intros [v [I J]]. exists l. split; [reflexivity|]. destruct v; try (destruct J; fail). destruct J as [J|[]]. subst n. exact I.
  - intros [l' [E I]]. injection E as E. subst l'. exists (VStr n). split; [exact I|left; reflexivity].
Qed.

Lemma with_members_get : forall g k, k <> "members" -> dget k (with_members g) = dget k g.
Proof. intros g k N. unfold with_members. destruct (dmem "members" g); [reflexivity|]. apply dget_dset_other. exact N. Qed.
Lemma with_members_names : forall g, member_names (with_members g) = member_names g.
Proof.
  intros g. unfold with_members, dmem, member_names. destruct (dget "members" g) as [v|] eqn:G; [rewrite G; reflexivity|]. rewrite dget_dset_same. reflexivity.
Qed.
Lemma with_members_NoDup : forall g, NoDup (dkeys g) -> NoDup (dkeys (with_members g)).
Proof. intros g N. unfold with_members. destruct (dmem "members" g); [exact N|]. apply NoDup_dset. exact N. Qed.

(* attributes of groups of every type include the list of members; node_data is an attribute of node groups only *)
Definition usable_attrs (g : dict val) : Prop :=
  In "members" (attrs (group_type g)) /\ (In "node_data" (attrs (group_type g)) \/ ~ In "node_data" (dkeys g)).

Lemma moved_members : forall g, NoDup (dkeys g) -> usable_attrs g ->
  member_names (move_attributes (attrs (group_type g)) (with_members g)) = member_names g.
Proof.
  intros g ND [AM AN]. rewrite <- (with_members_names g).
  destruct (group_attributes_moved (attrs (group_type g)) (with_members g) (with_members_NoDup g ND)) as [_ [B _]].
  { destruct AN as [AN|AN]; [left; exact AN|right]. intros Q. apply AN. apply dmem_true. apply dmem_true in Q. unfold dmem in *. rewrite with_members_get in Q by discriminate. exact Q. }
  unfold member_names. rewrite B; [reflexivity| |discriminate]. intros [_ [Q _]]. contradiction.
Qed.

Lemma app_not_nil : forall (a b : list gerr), a <> [] -> a ++ b <> [].
Proof. intros a b N Q. apply app_eq_nil in Q. destruct Q as [Q _]. contradiction. Qed.

(* nothing is reported exactly when all groups are sound and, unless members are pruned, all members are known *)
Theorem group_checks_exact : forall prune names groups,
  (forall n g, In (n, g) groups -> NoDup (dkeys g) /\ usable_attrs g) ->
  (snd (check_groups attrs objects check prune names groups []) = [] <->
   forall n g, In (n, g) groups -> underscore n = false -> sound_group n g
     /\ (prune = false -> forall m t, member g m -> type_is g t -> In m (objects t) \/ In m names)).
Proof.
  intros prune names groups.
  assert (KEEP : forall groups errs, errs <> [] -> snd (check_groups attrs objects check prune names groups errs) <> []).
  { induction groups0 as [|[n g] r IH]; intros errs NE; [exact NE|]. cbn [check_groups snd]. apply IH. unfold check_group.
    destruct (underscore n); [exact NE|]. cbv zeta. pose proof (app_not_nil errs (group_errors check n g) NE) as Q.
    destruct (errs ++ group_errors check n g) as [|e er]; [contradiction Q; reflexivity|]. discriminate. }
  induction groups as [|[n g] r IH]; intros W.
  { cbn [check_groups snd]. split; [intros _ n g []|reflexivity]. }
  assert (WR : forall n g, In (n, g) r -> NoDup (dkeys g) /\ usable_attrs g) by (intros x y I; apply (W x y); right; exact I).
  specialize (IH WR). destruct (W n g (or_introl eq_refl)) as [ND UA]. cbn [check_groups snd].
  assert (ONE : snd (check_group attrs objects check prune names n g []) = [] <-> (underscore n = false -> sound_group n g
     /\ (prune = false -> forall m t, member g m -> type_is g t -> In m (objects t) \/ In m names))).
  { unfold check_group. destruct (underscore n); [split; [intros _ Q; discriminate Q|reflexivity]|]. cbv zeta. cbn [app].
    pose proof (errors_nil n g) as EN. destruct (group_errors check n g) as [|e er].
    - assert (SG : sound_group n g) by (apply EN; reflexivity). destruct prune.
      + cbn [snd]. split; [intros _ _; split; [exact SG|intros Q; discriminate Q]|reflexivity].
      + cbn [snd]. rewrite (moved_members g ND UA). split.
        * intros H _. split; [exact SG|]. intros _ m t M T. apply type_spec in T. subst t. apply member_spec in M.
          destruct (memS m (objects (group_type g)) || memS m names) eqn:K; [apply orb_true_iff in K; rewrite !memS_true in K; exact K|].
          exfalso. assert (I : In (GMember n m) (map (GMember n) (filter (fun n0 => negb (memS n0 (objects (group_type g)) || memS n0 names)) (member_names g)))).
          { apply in_map. apply filter_In. split; [exact M|]. rewrite K. reflexivity. }
          rewrite H in I. destruct I.
        * intros H. destruct (H eq_refl) as [_ H2]. specialize (H2 eq_refl).
          destruct (filter (fun n0 => negb (memS n0 (objects (group_type g)) || memS n0 names)) (member_names g)) as [|m ms] eqn:F; [reflexivity|].
          exfalso. assert (I : In m (m :: ms)) by (left; reflexivity). rewrite <- F in I. apply filter_In in I. destruct I as [I K]. apply member_spec in I.
          apply negb_true_iff in K. apply orb_false_iff in K. rewrite !memS_false in K.
          destruct (H2 m (group_type g) I (proj1 (type_spec g _) eq_refl)) as [Q|Q]; destruct K; contradiction.
    - cbn [snd]. split; [intros H; discriminate H|]. intros H. destruct (H eq_refl) as [SG _]. apply EN in SG. discriminate SG. }
  split.
  - intros H. assert (S : snd (check_group attrs objects check prune names n g []) = []).
    { destruct (snd (check_group attrs objects check prune names n g [])) as [|e er] eqn:S; [reflexivity|]. exfalso. apply (KEEP r (e :: er)); [discriminate|exact H]. }
    rewrite S in H. intros x y [I|I] U; [injection I as I1 I2; subst x y; exact (proj1 ONE S U)|exact (proj1 IH H x y I U)].
  - intros H. rewrite (proj2 ONE (fun U => H n g (or_introl eq_refl) U)). apply IH. intros x y I U. exact (H x y (or_intror I) U).
Qed.

(* groups checked without errors: attributes are moved, members stay or lose the unknown ones; groups checked after an error only get
   an empty list of members *)
Theorem group_results_exact : forall prune names name g errs, NoDup (dkeys g) -> usable_attrs g -> underscore name = false ->
  let g' := fst (check_group attrs objects check prune names name g errs) in
  ((errs <> [] \/ ~ sound_group name g) -> g' = if dmem "members" g then g else dset "members" (VList []) g)
  /\ (errs = [] -> sound_group name g -> forall t, type_is g t ->
        (forall k, moved (attrs t) g k -> dget k g' = None /\ dget k (rdd "node_data" g') = dget k g)
        /\ (forall k, ~ moved (attrs t) g k -> k <> "node_data" -> k <> "members" -> dget k g' = dget k g)
        /\ (forall k, k <> "members" -> ~ moved (attrs t) g k -> dget k (rdd "node_data" g') = dget k (rdd "node_data" g))
        /\ (prune = false -> dget "members" g' = Some (match dget "members" g with Some m => m | None => VList [] end))
        /\ (prune = true -> exists l, dget "members" g' = Some (VList (map VStr l)) /\ forall m, In m l <-> member g m /\ (In m (objects t) \/ In m names))).
Proof.
  intros prune names name g errs ND UA U g'. unfold g', check_group. rewrite U. cbv zeta. split.
  - intros H. fold (with_members g). destruct (errs ++ group_errors check name g) as [|e er] eqn:E; [|reflexivity]. exfalso.
    apply app_eq_nil in E. destruct E as [E1 E2]. apply errors_nil in E2. destruct H as [H|H]; contradiction.
  - intros EN SG t T. subst errs. apply errors_nil in SG. rewrite SG. cbn [app]. apply type_spec in T. subst t.
    set (ga := attrs (group_type g)) in *. destruct UA as [AM AN]. fold ga in AM, AN.
    assert (AN' : In "node_data" ga \/ ~ In "node_data" (dkeys (with_members g))).
    { destruct AN as [AN|AN]; [left; exact AN|right]. intros Q. apply AN. apply dmem_true. apply dmem_true in Q. unfold dmem in *. rewrite with_members_get in Q by discriminate. exact Q. }
    destruct (group_attributes_moved ga (with_members g) (with_members_NoDup g ND) AN') as [A [B [C _]]].
    assert (MV : forall k, moved ga (with_members g) k <-> moved ga g k).
    { intros k. unfold moved. rewrite <- !dmem_true. destruct (String.string_dec k "members") as [Q|Q].
      - subst k. split; intros [_ [X _]]; contradiction.
      - unfold dmem. rewrite with_members_get by exact Q. reflexivity. }
    set (g2 := move_attributes ga (with_members g)) in *.
    assert (M2 : dget "members" g2 = dget "members" (with_members g)) by (apply B; [intros [_ [X _]]; contradiction|discriminate]).
    assert (MW : dget "members" (with_members g) = Some (match dget "members" g with Some m => m | None => VList [] end)).
    { unfold with_members, dmem. destruct (dget "members" g) as [m|] eqn:G; [exact G|apply dget_dset_same]. }
    assert (MN : member_names g2 = member_names g) by (unfold member_names at 1; rewrite M2; exact (with_members_names g)).
    assert (R : forall k, k <> "members" -> ~ moved ga g k -> k <> "node_data" -> dget k g2 = dget k g).
    { intros k K N ND2. rewrite B; [apply with_members_get; exact K|rewrite MV; exact N|exact ND2]. }
    assert (P : forall g3, (forall k, k <> "members" -> dget k g3 = dget k g2) ->
      (forall k, moved ga g k -> dget k g3 = None /\ dget k (rdd "node_data" g3) = dget k g)
      /\ (forall k, ~ moved ga g k -> k <> "node_data" -> k <> "members" -> dget k g3 = dget k g)
      /\ (forall k, k <> "members" -> ~ moved ga g k -> dget k (rdd "node_data" g3) = dget k (rdd "node_data" g))).
    { intros g3 G3. assert (RD : rdd "node_data" g3 = rdd "node_data" g2) by (apply rdd_get; apply G3; discriminate). rewrite RD. split; [|split].
      - intros k K. assert (KM : k <> "members") by (intros Q; subst k; destruct K as [_ [X _]]; contradiction). rewrite G3 by exact KM.
        destruct (A k (proj2 (MV k) K)) as [A1 A2]. split; [exact A1|]. rewrite A2. apply with_members_get. exact KM.
      - intros k N ND2 K. rewrite G3 by exact K. apply R; assumption.
      - intros k K N. rewrite C by (rewrite MV; exact N). rewrite (rdd_get "node_data" g (with_members g)) by (apply with_members_get; discriminate). reflexivity. }
    destruct prune; cbn [fst].
    + destruct (P (dset "members" (VList (map VStr (filter (fun n => memS n (objects (group_type g)) || memS n names) (member_names g2)))) g2)) as [P1 [P2 P3]].
      { intros k K. apply dget_dset_other. exact K. }
      split; [exact P1|]. split; [exact P2|]. split; [exact P3|]. split; [intros Q; discriminate Q|]. intros _.
      exists (filter (fun n => memS n (objects (group_type g)) || memS n names) (member_names g2)). split; [apply dget_dset_same|].
      intros m. rewrite filter_In, MN, member_spec, orb_true_iff, !memS_true. reflexivity.
    + destruct (P g2 (fun k _ => eq_refl)) as [P1 [P2 P3]]. split; [exact P1|]. split; [exact P2|]. split; [exact P3|].
      split; [|intros Q; discriminate Q]. intros _. rewrite M2. exact MW.
Qed.
End GroupChecks.

Definition ex_attrs (t : string) : list string := if String.eqb t "node" then ["members"; "vars"; "config"; "node_data"; "device"; "module"] else ["type"; "members"].
Definition ex_groups : dict (dict val) :=
  [("core", ex_group); ("_auto", []); ("vl", [("type", VStr "vlan"); ("members", VList [VStr "red"; VStr "core"]); ("mode", VStr "irb")])].
Example group_checks_case : let obj := fun t => if String.eqb t "node" then ["a"] else ["red"] in
  check_groups ex_attrs obj (fun _ _ => []) false ["core"; "_auto"; "vl"] ex_groups [] =
  ([("core", [("members", VList [VStr "a"]); ("node_data", VDict [("x", VInt 1); ("bgp", VDict []); ("mtu", VInt 1500)])]); ("_auto", []);
    ("vl", [("type", VStr "vlan"); ("members", VList [VStr "red"; VStr "core"]); ("node_data", VDict [("mode", VStr "irb")])])], [])
  /\ (forall n g, In (n, g) ex_groups -> NoDup (dkeys g) /\ usable_attrs ex_attrs g).
Proof.
  cbv zeta. split; [reflexivity|]. intros n g [E|[E|[E|[]]]]; injection E as E1 E2; subst n g.
  - split; [repeat constructor; cbn; intuition discriminate|]. split; [cbn; auto|left; cbn; auto].
  - split; [constructor|]. split; [cbn; auto|left; cbn; auto].
  - split; [repeat constructor; cbn; intuition discriminate|]. split; [cbn; auto|]. right. cbn. intuition discriminate.
Qed.
(* an unknown member stops the processing of later groups *)
Example group_error_case : check_groups ex_attrs (fun _ => []) (fun _ _ => []) false ["core"; "vl"] ex_groups [] =
  ([("core", [("members", VList [VStr "a"]); ("node_data", VDict [("x", VInt 1); ("bgp", VDict []); ("mtu", VInt 1500)])]); ("_auto", []);
    ("vl", [("type", VStr "vlan"); ("members", VList [VStr "red"; VStr "core"]); ("mode", VStr "irb")])], [GMember "core" "a"]).
Proof. reflexivity. Qed.

Print Assumptions group_attributes_moved.
Print Assumptions group_data_merged_refuted.
Print Assumptions group_checks_exact.
Print Assumptions group_results_exact.
