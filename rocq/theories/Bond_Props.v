(* Properties C161 and C162: bond interfaces and the names of interfaces of their neighbors. *)
From Coq Require Import String ZArith Lia Bool List.
From Verif Require Import Base Box_Model Bond_Model.
Import ListNotations.
Local Open Scope string_scope.
Local Open Scope list_scope.

Section Spec.
Variable fmt : Z -> string.
Variable nodes_on : nat -> nat.

(* ------------------------------------------------------------------ *)
(* Specification                                                        *)

(* an interface that becomes a member of bond k *)
Definition member (k : Z) (i : bintf) : bool :=
  match bi_req i with
  | Some r => Z.eqb k (br_index r) && negb (bi_virtual i) && Nat.eqb (nodes_on (bi_link i)) 2
  | None => false
  end.

(* the indexes of the bonds, in the order in which they are seen *)
Definition first_seen (l : list Z) : list Z := rev (nodup Z.eq_dec (rev l)).
Definition bond_ids (l : list bintf) : list Z :=
  flat_map (fun i => match bi_req i with Some r => if member (br_index r) i then [br_index r] else [] | None => [] end) l.

(* the last primary member *)
Definition is_primary (i : bintf) : bool := match bi_req i with Some r => br_primary r | None => false end.
Definition primary (l : list bintf) : option string := option_map bi_ifname (find is_primary (rev l)).

Definition moves (a : string) : Prop := In a ["ipv4"; "ipv6"; "vlan"; "_vlan_mode"; "vlan_name"; "gateway"].

(* a member keeps everything but the addresses and the VLANs *)
Definition stripped (i j : bintf) : Prop :=
  bi_name j = bi_name i /\ bi_ifname j = bi_ifname i /\ bi_ifindex j = bi_ifindex i /\ bi_link j = bi_link i /\ bi_virtual j = bi_virtual i /\
  bi_req j = bi_req i /\ bi_ngb j = bi_ngb i /\ dget "prefix" (bi_attr j) = Some (VBool false) /\
  (forall a, moves a -> dget a (bi_attr j) = None) /\
  (forall a, ~ moves a -> a <> "prefix" -> dget a (bi_attr j) = dget a (bi_attr i)).

(* the bond made of its members *)
Definition bond_spec (mode : string) (l : list bintf) (b : bond) : Prop :=
  bd_members b = map bi_ifname l /\ bd_primary b = primary l /\
  exists i r rest, l = i :: rest /\ bi_req i = Some r /\ bd_mode b = (match br_mode r with Some m => m | None => mode end) /\
    bd_ngb b = bi_ngb i /\
    forall a v, dget a (bd_attr b) = Some v <-> moves a /\ dget a (bi_attr i) = Some v.

(* ------------------------------------------------------------------ *)

Lemma bget_bset_same : forall k b l, bget k (bset k b l) = Some b.
Proof.
  intros k b. induction l as [|[k' b'] l IH]; cbn [bset bget]; [rewrite Z.eqb_refl; reflexivity|].
  destruct (Z.eqb k k') eqn:E; cbn [bget]; [rewrite Z.eqb_refl; reflexivity|]. rewrite E. exact IH.
Qed.

Lemma bget_bset_other : forall k k' b l, k <> k' -> bget k (bset k' b l) = bget k l.
Proof.
  intros k k' b l N. assert (E : Z.eqb k k' = false) by (apply Z.eqb_neq; exact N).
  induction l as [|[k2 b2] l IH]; cbn [bset bget]; [rewrite E; reflexivity|].
  destruct (Z.eqb_spec k' k2) as [Q|Q]; cbn [bget].
  - subst k2. rewrite E. reflexivity.
  - destruct (Z.eqb k k2); [reflexivity|exact IH].
Qed.

Lemma bget_In : forall k l, bget k l <> None <-> In k (map fst l).
Proof.
  intros k. induction l as [|[k' b'] l IH]; cbn [bget map fst In]; [split; [intros H; apply H; reflexivity|intros []]|].
  destruct (Z.eqb_spec k k') as [Q|Q].
  - split; [intros _; left; symmetry; exact Q|intros _; discriminate].
  - rewrite IH. split; [intros H; right; exact H|intros [H|H]; [exfalso; apply Q; symmetry; exact H|exact H]].
Qed.

Lemma bset_keys : forall k b l, map fst (bset k b l) = if in_dec Z.eq_dec k (map fst l) then map fst l else map fst l ++ [k].
Proof.
  intros k b. induction l as [|[k' b'] l IH]; cbn [bset map fst]; [destruct (in_dec Z.eq_dec k []) as [Q|Q]; [destruct Q|reflexivity]|].
  destruct (Z.eqb_spec k k') as [Q|Q]; cbn [map fst].
  - subst k'. destruct (in_dec Z.eq_dec k (k :: map fst l)) as [_|W]; [reflexivity|exfalso; apply W; left; reflexivity].
  - rewrite IH. destruct (in_dec Z.eq_dec k (map fst l)) as [W|W]; destruct (in_dec Z.eq_dec k (k' :: map fst l)) as [U|U].
    + reflexivity.
    + exfalso. apply U. right. exact W.
    + exfalso. destruct U as [U|U]; [apply Q; symmetry; exact U|exact (W U)].
    + reflexivity.
Qed.

Lemma first_seen_app : forall l k, first_seen (l ++ [k]) = if in_dec Z.eq_dec k l then first_seen l else first_seen l ++ [k].
Proof.
  intros l k. unfold first_seen. rewrite rev_app_distr. cbn [rev app nodup].
  destruct (in_dec Z.eq_dec k (rev l)) as [Q|Q]; destruct (in_dec Z.eq_dec k l) as [W|W].
  - reflexivity.
  - exfalso. apply W. apply in_rev. exact Q.
  - exfalso. apply Q. apply in_rev. rewrite rev_involutive. exact W.
  - reflexivity.
Qed.

Lemma first_seen_In : forall l k, In k (first_seen l) <-> In k l.
Proof. intros l k. unfold first_seen. rewrite <- in_rev, nodup_In, <- in_rev. reflexivity. Qed.

Lemma first_seen_NoDup : forall l, NoDup (first_seen l).
Proof. intros l. apply NoDup_rev. apply NoDup_nodup. Qed.

(* the bond of a list of members *)
Definition bond_of (mode : string) (l : list bintf) : option bond :=
  match l with
  | [] => None
  | i :: _ => Some (mk_bd (map bi_ifname l)
                (match bi_req i with Some r => match br_mode r with Some m => m | None => mode end | None => mode end)
                (bi_ngb i) (primary l) (moved (bi_attr i)))
  end.

Definition strip (feat : bool) (i : bintf) : bintf :=
  match bi_req i with
  | Some r => if feat && member (br_index r) i then set_attr (dset "prefix" (VBool false) (left_over (bi_attr i))) i else i
  | None => i
  end.

Definition err_of (feat : bool) (i : bintf) : list berr :=
  match bi_req i with
  | Some r => if feat then if member (br_index r) i then [] else [BLink (bi_name i)] else [BDevice (bi_name i)]
  | None => []
  end.

Lemma member_p2p : forall i r, bi_req i = Some r -> member (br_index r) i = on_p2p nodes_on i.
Proof. intros i r E. unfold member, on_p2p. rewrite E, Z.eqb_refl. reflexivity. Qed.

Lemma member_only : forall k i r, bi_req i = Some r -> k <> br_index r -> member k i = false.
Proof. intros k i r E N. unfold member. rewrite E. apply Z.eqb_neq in N. rewrite N. reflexivity. Qed.

Lemma primary_app : forall l i, primary (l ++ [i]) = if is_primary i then Some (bi_ifname i) else primary l.
Proof. intros l i. unfold primary. rewrite rev_app_distr. cbn [rev app find]. destruct (is_primary i); reflexivity. Qed.

Lemma bond_of_add : forall mode l i r bonds, bi_req i = Some r -> bget (br_index r) bonds = bond_of mode l ->
  bget (br_index r) (add_member mode r i bonds) = bond_of mode (l ++ [i]).
Proof.
  intros mode l i r bonds E B. unfold add_member. rewrite B, bget_bset_same. destruct l as [|x l]; cbn [bond_of app].
  - rewrite E. unfold primary. cbn [rev app find]. unfold is_primary. rewrite E. destruct (br_primary r); reflexivity.
  - change (x :: l ++ [i]) with ((x :: l) ++ [i]). rewrite primary_app, map_app. unfold is_primary. rewrite E. destruct (br_primary r); reflexivity.
Qed.

Record inv (feat : bool) (mode : string) (pre : list bintf) (s : bstate) : Prop := {
  inv_done : bs_done s = map (strip feat) pre;
  inv_err : bs_err s = flat_map (err_of feat) pre;
  inv_bond : forall k, bget k (bs_bonds s) = if feat then bond_of mode (filter (member k) pre) else None;
  inv_keys : map fst (bs_bonds s) = if feat then first_seen (bond_ids pre) else []
}.

Lemma bond_ids_In : forall k l, In k (bond_ids l) <-> filter (member k) l <> [].
Proof.
  intros k l. induction l as [|i l IH]; [cbn; split; [intros []|intros H; apply H; reflexivity]|].
  unfold bond_ids in *. cbn [flat_map filter]. rewrite in_app_iff, IH. destruct (bi_req i) as [r|] eqn:E.
  - destruct (Z.eq_dec k (br_index r)) as [Q|Q].
    + subst k. destruct (member (br_index r) i); [split; [intros _; discriminate|intros _; left; left; reflexivity]|].
      split; [intros [[]|H]; exact H|intros H; right; exact H].
    + rewrite (member_only k i r E Q). destruct (member (br_index r) i).
      * split; [intros [[H|[]]|H]; [exfalso; apply Q; symmetry; exact H|exact H]|intros H; right; exact H].
      * split; [intros [[]|H]; exact H|intros H; right; exact H].
  - assert (M : member k i = false) by (unfold member; rewrite E; reflexivity). rewrite M.
    split; [intros [[]|H]; exact H|intros H; right; exact H].
Qed.

Lemma inv_step : forall feat mode pre s i, inv feat mode pre s -> inv feat mode (pre ++ [i]) (member_step nodes_on feat mode s i).
Proof.
  intros feat mode pre s i [D E B K]. unfold member_step.
  assert (SAME : forall e, err_of feat i = e -> strip feat i = i ->
                 (feat = true -> (forall k, member k i = false)) ->
                 inv feat mode (pre ++ [i]) (mk_bs (bs_done s ++ [i]) (bs_bonds s) (bs_err s ++ e))).
  { intros e X1 X2 X3. split; cbn [bs_done bs_err bs_bonds].
    - rewrite map_app, D. cbn [map]. rewrite X2. reflexivity.
    - rewrite flat_map_app, E. cbn [flat_map]. rewrite X1, app_nil_r. reflexivity.
    - intros k. rewrite B. destruct feat; [|reflexivity]. rewrite filter_app. cbn [filter]. rewrite (X3 eq_refl k), app_nil_r. reflexivity.
    - rewrite K. destruct feat; [|reflexivity]. f_equal. unfold bond_ids. rewrite flat_map_app. cbn [flat_map].
      destruct (bi_req i) as [r|]; [rewrite (X3 eq_refl (br_index r))|]; rewrite !app_nil_r; reflexivity. }
  destruct (bi_req i) as [r|] eqn:R.
  2:{ specialize (SAME []). rewrite app_nil_r in SAME. apply SAME.
      - unfold err_of. rewrite R. reflexivity.
      - unfold strip. rewrite R. reflexivity.
      - intros _ k. unfold member. rewrite R. reflexivity. }
  destruct feat; cbn [negb].
  2:{ apply SAME.
      - unfold err_of. rewrite R. reflexivity.
      - unfold strip. rewrite R. reflexivity.
      - discriminate. }
  pose proof (member_p2p i r R) as MP. destruct (on_p2p nodes_on i); cbn [negb].
  2:{ apply SAME.
      - unfold err_of. rewrite R, MP. reflexivity.
      - unfold strip. rewrite R, MP. reflexivity.
      - intros _ k. destruct (Z.eq_dec k (br_index r)) as [Q|Q]; [subst k; exact MP|exact (member_only k i r R Q)]. }
  split; cbn [bs_done bs_err bs_bonds].
  - rewrite map_app, D. cbn [map]. unfold strip at 3. rewrite R, MP. reflexivity.
  - rewrite flat_map_app, E. cbn [flat_map]. unfold err_of at 3. rewrite R, MP, !app_nil_r. reflexivity.
  - intros k. rewrite filter_app. cbn [filter]. destruct (Z.eq_dec k (br_index r)) as [Q|Q].
    + subst k. rewrite MP. apply (bond_of_add mode _ i r); [exact R|]. exact (B (br_index r)).
    + rewrite (member_only k i r R Q), app_nil_r. unfold add_member. rewrite bget_bset_other by exact Q. exact (B k).
  - unfold add_member. rewrite bset_keys, K. unfold bond_ids. rewrite flat_map_app. cbn [flat_map]. rewrite R, MP, app_nil_r, first_seen_app.
    fold (bond_ids pre).
    destruct (in_dec Z.eq_dec (br_index r) (first_seen (bond_ids pre))) as [W|W]; destruct (in_dec Z.eq_dec (br_index r) (bond_ids pre)) as [U|U].
    + reflexivity.
    + exfalso. apply U. apply first_seen_In. exact W.
    + exfalso. apply W. apply first_seen_In. exact U.
    + reflexivity.
Qed.

Lemma inv_all : forall feat mode l, inv feat mode l (fold_left (member_step nodes_on feat mode) l (mk_bs [] [] [])).
Proof.
  intros feat mode l. induction l as [|i l IH] using rev_ind.
  - split; cbn; [reflexivity|reflexivity|intros k; destruct feat; reflexivity|destruct feat; reflexivity].
  - rewrite fold_left_app. cbn [fold_left]. apply inv_step. exact IH.
Qed.

Lemma left_over_get : forall d a, dget a (left_over d) = if in_dec string_dec a ATTS_TO_MOVE then None else dget a d.
Proof.
  intros d a. unfold left_over. generalize ATTS_TO_MOVE. intros l. revert d. induction l as [|x l IH]; intros d; cbn [fold_left].
  - destruct (in_dec string_dec a []) as [Q|Q]; [destruct Q|reflexivity].
  - rewrite IH. destruct (in_dec string_dec a l) as [Q|Q]; destruct (in_dec string_dec a (x :: l)) as [W|W].
    + reflexivity.
    + exfalso. apply W. right. exact Q.
    + destruct W as [W|W]; [|contradiction]. subst x. apply dget_dpop_same.
    + apply dget_dpop_other. intros N. apply W. left. symmetry. exact N.
Qed.

Lemma moved_get : forall d a v, dget a (moved d) = Some v <-> moves a /\ dget a d = Some v.
Proof.
  intros d a v. unfold moved, moves. fold ATTS_TO_MOVE. change ["ipv4"; "ipv6"; "vlan"; "_vlan_mode"; "vlan_name"; "gateway"] with ATTS_TO_MOVE.
  generalize ATTS_TO_MOVE. intros l. induction l as [|x l IH]; cbn [flat_map].
  - split; [intros H; discriminate H|intros [[] _]].
  - destruct (dget x d) as [w|] eqn:X; cbn [app].
    + cbn [dget]. destruct (String.eqb_spec a x) as [Q|Q].
      * subst x. rewrite X. split; [intros H; split; [left; reflexivity|exact H]|intros [_ H]; exact H].
      * rewrite IH. split; [intros [A B]; split; [right; exact A|exact B]|intros [[A|A] B]; [exfalso; apply Q; symmetry; exact A|split; assumption]].
    + rewrite IH. split; [intros [A B]; split; [right; exact A|exact B]|].
      intros [[A|A] B]; [subst x; rewrite X in B; discriminate B|split; assumption].
Qed.

Lemma stripped_strip : forall i, stripped i (set_attr (dset "prefix" (VBool false) (left_over (bi_attr i))) i).
Proof.
  intros i. repeat (split; [reflexivity|]). cbn [set_attr bi_attr]. split; [apply dget_dset_same|]. split.
  - intros a M. rewrite dget_dset_other.
    + rewrite left_over_get. destruct (in_dec string_dec a ATTS_TO_MOVE) as [_|W]; [reflexivity|contradiction].
    + intros Q. subst a. unfold moves in M. cbn in M. repeat (destruct M as [M|M]; [discriminate M|]). exact M.
  - intros a M N. rewrite dget_dset_other by exact N. rewrite left_over_get.
    destruct (in_dec string_dec a ATTS_TO_MOVE) as [W|_]; [contradiction|reflexivity].
Qed.

Lemma interfaces_nth : forall l c p x, nth_error (bond_interfaces fmt c l) p = Some x <->
  exists k b, nth_error l p = Some (k, b) /\ x = mk_bo (fmt k) k (50000 + (c + Z.of_nat p))%Z b.
Proof.
  induction l as [|[k b] l IH]; intros c p x; cbn [bond_interfaces].
  - destruct p; cbn; (split; [intros H; discriminate H|intros [k [b [H _]]]; discriminate H]).
  - destruct p as [|p]; cbn [nth_error].
    + replace (c + Z.of_nat 0)%Z with c by lia. split.
      * intros H. injection H as H. exists k, b. split; [reflexivity|]. symmetry. exact H.
      * intros [k' [b' [H X]]]. injection H as H1 H2. subst. reflexivity.
    + rewrite IH. replace (c + 1 + Z.of_nat p)%Z with (c + Z.of_nat (S p))%Z by lia. reflexivity.
Qed.

Lemma interfaces_index : forall l c, map bo_index (bond_interfaces fmt c l) = map fst l.
Proof. induction l as [|[k b] l IH]; intros c; cbn; [reflexivity|]. rewrite IH. reflexivity. Qed.

Lemma nth_bget : forall l p k b, NoDup (map fst l) -> nth_error l p = Some (k, b) -> bget k l = Some b.
Proof.
  induction l as [|[k' b'] l IH]; intros p k b ND H; [destruct p; discriminate H|]. cbn [map fst] in ND. inversion ND as [|? ? N1 N2]; subst.
  cbn [bget]. destruct p as [|p]; cbn [nth_error] in H.
  - injection H as H1 H2. subst. rewrite Z.eqb_refl. reflexivity.
  - destruct (Z.eqb_spec k k') as [Q|Q]; [|exact (IH p k b N2 H)]. subst k'. exfalso. apply N1.
    apply nth_error_In in H. apply (in_map fst) in H. exact H.
Qed.

(* Bond interfaces of a node whose device supports bonding: one per index, in the order of the first members, made of all
   members in order; everything else comes from the first member. *)
Theorem bond_interfaces_exact : forall mode l l' bo e cfg,
  bond_node fmt nodes_on true mode l = (l', bo, e, cfg) ->
  let dm := match mode with Some m => m | None => "active-backup" end in
  map bo_index bo = first_seen (bond_ids l) /\
  (forall p x, nth_error bo p = Some x -> bo_ifindex x = (50000 + Z.of_nat p)%Z /\ bo_ifname x = fmt (bo_index x) /\
     bond_spec dm (filter (member (bo_index x)) l) (bo_bond x)) /\
  (cfg = true <-> exists i k, In i l /\ member k i = true).
Proof.
  intros mode l l' bo e cfg H dm. unfold bond_node in H. fold dm in H.
  pose proof (inv_all true dm l) as [D E B K]. destruct (fold_left _ l _) as [dn bs er]. cbn [bs_done bs_bonds bs_err] in *.
  injection H as H1 H2 H3 H4. subst l' bo e. split; [rewrite interfaces_index; exact K|]. split.
  - intros p x X. apply interfaces_nth in X. destruct X as [k [b [N X]]]. subst x. cbn [bo_ifindex bo_ifname bo_index bo_bond].
    split; [lia|]. split; [reflexivity|].
    assert (ND : NoDup (map fst bs)) by (rewrite K; apply first_seen_NoDup).
    pose proof (nth_bget bs p k b ND N) as G. rewrite B in G. destruct (filter (member k) l) as [|i rest] eqn:F; [discriminate G|].
    cbn [bond_of] in G. injection G as G. subst b. split; [reflexivity|]. split; [reflexivity|].
    assert (M : member k i = true).
    { assert (I : In i (filter (member k) l)) by (rewrite F; left; reflexivity). apply filter_In in I. apply I. }
    unfold member in M. destruct (bi_req i) as [r|] eqn:R; [|discriminate M].
    exists i, r, rest. split; [reflexivity|]. split; [exact R|]. cbn [bd_mode bd_ngb bd_attr]. split; [reflexivity|]. split; [reflexivity|].
    intros a v. apply moved_get.
  - assert (Q : cfg = true <-> bs <> []).
    { rewrite <- H4. destruct bs; [split; [discriminate|intros N; exfalso; apply N; reflexivity]|split; [discriminate|reflexivity]]. }
    rewrite Q. split.
    + intros N. destruct bs as [|[k b] bs]; [exfalso; apply N; reflexivity|]. assert (I : In k (first_seen (bond_ids l))) by (rewrite <- K; left; reflexivity).
      apply first_seen_In, bond_ids_In in I. destruct (filter (member k) l) as [|i rest] eqn:F; [exfalso; apply I; reflexivity|].
      assert (J : In i (filter (member k) l)) by (rewrite F; left; reflexivity). apply filter_In in J. exists i, k. exact J.
    + intros [i [k [I M]]] N. subst bs. specialize (B k). cbn [bget] in B.
      assert (J : In i (filter (member k) l)) by (apply filter_In; split; assumption). destruct (filter (member k) l); [destruct J|discriminate B].
Qed.

(* The other interfaces do not change, members lose the moved attributes, and errors are exact. *)
Theorem bond_members_exact : forall feat mode l l' bo e cfg,
  bond_node fmt nodes_on feat mode l = (l', bo, e, cfg) ->
  (feat = false -> l' = l /\ bo = [] /\ cfg = false) /\
  Forall2 (fun i j =>
    (feat = true -> (exists k, member k i = true) -> stripped i j) /\ ((feat = false \/ forall k, member k i = false) -> j = i)) l l' /\
  forall x, In x e <-> exists i, In i l /\ bi_req i <> None /\
    ((feat = false /\ x = BDevice (bi_name i)) \/
     (feat = true /\ (bi_virtual i = true \/ nodes_on (bi_link i) <> 2) /\ x = BLink (bi_name i))).
Proof.
  intros feat mode l l' bo e cfg H. unfold bond_node in H. set (dm := match mode with Some m => m | None => "active-backup" end) in H.
  pose proof (inv_all feat dm l) as [D E B K]. destruct (fold_left _ l _) as [dn bs er]. cbn [bs_done bs_bonds bs_err] in *.
  injection H as H1 H2 H3 H4. subst. split; [|split].
  - intros F. rewrite F in *. cbv iota in K. apply map_eq_nil in K. subst bs. split; [|split; reflexivity].
    rewrite <- (map_id l) at 2. apply map_ext. intros i. unfold strip. destruct (bi_req i); reflexivity.
  - clear. induction l as [|i l IH]; cbn [map]; constructor; [|exact IH]. split.
    + intros F [k M]. unfold strip. pose proof M as M'. unfold member in M. destruct (bi_req i) as [r|] eqn:R; [|discriminate M].
      apply andb_true_iff in M. destruct M as [M _]. apply andb_true_iff in M. destruct M as [M _]. apply Z.eqb_eq in M. subst k.
      rewrite F, M'. apply stripped_strip.
    + intros Q. unfold strip. destruct (bi_req i) as [r|]; [|reflexivity]. destruct Q as [Q|Q]; [rewrite Q; reflexivity|].
      rewrite (Q (br_index r)), andb_false_r. reflexivity.
  - intros x. rewrite in_flat_map.
    assert (P : forall i r, bi_req i = Some r -> member (br_index r) i = false <-> bi_virtual i = true \/ nodes_on (bi_link i) <> 2).
    { intros i r R. unfold member. rewrite R, Z.eqb_refl. cbn [andb]. rewrite andb_false_iff, negb_false_iff, Nat.eqb_neq. reflexivity. }
    split.
    + intros [i [I X]]. exists i. split; [exact I|]. unfold err_of in X. destruct (bi_req i) as [r|] eqn:R; [|destruct X].
      split; [discriminate|]. destruct feat.
      * destruct (member (br_index r) i) eqn:M; [destruct X|]. destruct X as [X|[]]. right. split; [reflexivity|].
        split; [apply (P i r R); exact M|symmetry; exact X].
      * destruct X as [X|[]]. left. split; [reflexivity|symmetry; exact X].
    + intros [i [I [R X]]]. exists i. split; [exact I|]. unfold err_of. destruct (bi_req i) as [r|] eqn:RR; [|exfalso; apply R; reflexivity].
      destruct X as [[F X]|[F [Y X]]]; rewrite F; [left; symmetry; exact X|]. apply (P i r RR) in Y. rewrite Y. left. symmetry. exact X.
Qed.

(* ------------------------------------------------------------------ *)
(* Names of interfaces                                                  *)

(* the last event of a list that satisfies a condition *)
Definition last_event (f : bevent -> bool) (l : list bevent) : option bevent := find f (rev l).

Lemma rename_fst : forall n name l, map fst (rename n name l) = map fst l.
Proof.
  intros n name l. unfold rename. rewrite map_map. apply map_ext. intros [a b]. cbn [fst]. destruct (String.eqb a n); reflexivity.
Qed.

Lemma update_nth_nth : forall A (f : A -> A) l n m, nth_error (update_nth n f l) m = if Nat.eqb n m then option_map f (nth_error l m) else nth_error l m.
Proof.
  intros A f. induction l as [|x l IH]; intros n m.
  - destruct n as [|n]; destruct m as [|m]; cbn [update_nth nth_error Nat.eqb option_map]; try reflexivity; destruct (Nat.eqb n m); reflexivity.
  - destruct n as [|n]; destruct m as [|m]; cbn [update_nth nth_error Nat.eqb option_map]; try reflexivity. apply IH.
Qed.

Lemma rename_nth : forall n name l p x, nth_error l p = Some x ->
  nth_error (rename n name l) p = Some (fst x, if String.eqb (fst x) n then name else snd x).
Proof.
  intros n name l p x H. unfold rename. rewrite nth_error_map, H. cbn [option_map]. destruct x as [a b]. cbn [fst snd]. destruct (String.eqb a n); reflexivity.
Qed.

(* links keep their nodes *)
Definition on_link (s : names) (k : nat) : list string := map fst (nth k (nm_links s) []).

Lemma on_link_step : forall s e k, on_link (update_neighbors fmt s e) k = on_link s k.
Proof.
  intros s e k. unfold on_link, update_neighbors. cbn [nm_links].
  pose proof (update_nth_nth _ (rename (be_node e) (fmt (be_ifindex e))) (nm_links s) (be_link e) k) as U.
  destruct (nth_error (nm_links s) k) as [l|] eqn:L.
  - rewrite (nth_error_nth _ _ [] L). destruct (Nat.eqb (be_link e) k); cbn [option_map] in U.
    + rewrite (nth_error_nth _ _ [] U). apply rename_fst.
    + rewrite (nth_error_nth _ _ [] U). reflexivity.
  - assert (U' : nth_error (update_nth (be_link e) (rename (be_node e) (fmt (be_ifindex e))) (nm_links s)) k = None).
    { rewrite U. destruct (Nat.eqb (be_link e) k); reflexivity. }
    apply nth_error_None in L. apply nth_error_None in U'. rewrite !nth_overflow by assumption. reflexivity.
Qed.

Lemma on_link_all : forall l s k, on_link (rename_all fmt l s) k = on_link s k.
Proof. unfold rename_all. induction l as [|e l IH]; intros s k; cbn [fold_left]; [reflexivity|]. rewrite IH. apply on_link_step. Qed.

(* the neighbor at a position *)
Definition ngb_at (s : names) (n i p : nat) (m x name : string) : Prop :=
  exists il l, nth_error (nm_nodes s) n = Some (m, il) /\ nth_error il i = Some l /\ nth_error l p = Some (x, name).

(* an event of node x on a link of node m *)
Definition reaches (s : names) (m x : string) (e : bevent) : bool :=
  String.eqb (be_node e) x && negb (String.eqb m x) && memS m (on_link s (be_link e)).

Lemma others_mem : forall s e m, memS m (filter (fun n => negb (String.eqb n (be_node e))) (map fst (nth (be_link e) (nm_links s) []))) =
  negb (String.eqb m (be_node e)) && memS m (on_link s (be_link e)).
Proof.
  intros s e m. fold (on_link s (be_link e)). apply eq_true_iff_eq. rewrite memS_true, filter_In, andb_true_iff, memS_true. split; intros [A B]; split; assumption.
Qed.

Lemma ngb_step : forall s e n i p m x name, ngb_at s n i p m x name ->
  ngb_at (update_neighbors fmt s e) n i p m x (if reaches s m x e then fmt (be_ifindex e) else name).
Proof.
  intros s e n i p m x name [il [l [A [B C]]]]. unfold ngb_at, update_neighbors. cbn [nm_nodes]. rewrite nth_error_map, A. cbn [option_map fst snd].
  rewrite others_mem. unfold reaches. destruct (String.eqb_spec (be_node e) x) as [X|X]; cbn [andb].
  - subst x. destruct (negb (String.eqb m (be_node e)) && memS m (on_link s (be_link e)))%bool.
    + eexists. eexists. split; [reflexivity|]. split; [rewrite nth_error_map, B; reflexivity|]. rewrite (rename_nth _ _ _ _ _ C). cbn [fst snd].
      rewrite String.eqb_refl. reflexivity.
    + exists il, l. split; [reflexivity|]. split; assumption.
  - destruct (negb (String.eqb m (be_node e)) && memS m (on_link s (be_link e)))%bool.
    + eexists. eexists. split; [reflexivity|]. split; [rewrite nth_error_map, B; reflexivity|]. rewrite (rename_nth _ _ _ _ _ C). cbn [fst snd].
      assert (Q : String.eqb x (be_node e) = false) by (apply String.eqb_neq; intros Q; apply X; symmetry; exact Q). rewrite Q. reflexivity.
    + exists il, l. split; [reflexivity|]. split; assumption.
Qed.

(* The name of the interface of x that node m knows comes from the last member of any bond of x on any link to m, and it
   is made from the index of that member. *)
Theorem bond_neighbor_names_exact : forall l s n i p m x name, ngb_at s n i p m x name ->
  ngb_at (rename_all fmt l s) n i p m x (match last_event (reaches s m x) l with Some e => fmt (be_ifindex e) | None => name end).
Proof.
  intros l. induction l as [|e l IH] using rev_ind; intros s n i p m x name H; [exact H|].
  unfold rename_all, last_event. rewrite fold_left_app, rev_app_distr. cbn [fold_left rev app find].
  fold (rename_all fmt l s). specialize (IH s n i p m x name H).
  apply (ngb_step _ e) in IH. assert (R : reaches (rename_all fmt l s) m x e = reaches s m x e) by (unfold reaches; rewrite on_link_all; reflexivity).
  rewrite R in IH. destruct (reaches s m x e); exact IH.
Qed.

(* The name of an interface on a link comes from the last member of a bond on that node and link. *)
Theorem link_names_exact : forall l s k p il x name, nth_error (nm_links s) k = Some il -> nth_error il p = Some (x, name) ->
  exists il', nth_error (nm_links (rename_all fmt l s)) k = Some il' /\
    nth_error il' p = Some (x, match last_event (fun e => String.eqb (be_node e) x && Nat.eqb (be_link e) k) l with
                               | Some e => fmt (be_ifindex e) | None => name end).
Proof.
  intros l. induction l as [|e l IH] using rev_ind; intros s k p il x name L P.
  - exists il. split; [exact L|exact P].
  - destruct (IH s k p il x name L P) as [il1 [L1 P1]]. unfold rename_all, last_event in *. rewrite fold_left_app, rev_app_distr. cbn [fold_left rev app find].
    set (s1 := fold_left (update_neighbors fmt) l s) in *. clearbody s1. unfold update_neighbors. cbn [nm_links]. rewrite update_nth_nth, L1. destruct (Nat.eqb (be_link e) k); cbn [option_map].
    + eexists. split; [reflexivity|]. rewrite (rename_nth _ _ _ _ _ P1). cbn [fst snd]. rewrite andb_true_r, String.eqb_sym.
      destruct (String.eqb (be_node e) x); reflexivity.
    + exists il1. split; [reflexivity|]. rewrite andb_false_r. exact P1.
Qed.

(* The members that rename interfaces are the members of the bonds. *)
Theorem bond_events_exact : forall l e,
  In e (events nodes_on l) <-> exists n il i k, In (n, true, il) l /\ In i il /\ member k i = true /\ e = mk_be n (bi_link i) (bi_ifindex i).
Proof.
  intros l e. unfold events. rewrite in_flat_map. split.
  - intros [[[n feat] il] [I X]]. apply in_flat_map in X. destruct X as [i [J X]]. destruct (bi_req i) as [r|] eqn:R; [|destruct X].
    pose proof (member_p2p i r R) as M. destruct feat; [|destruct X]. destruct (on_p2p nodes_on i); [|destruct X]. destruct X as [X|[]].
    exists n, il, i, (br_index r). split; [exact I|]. split; [exact J|]. split; [exact M|symmetry; exact X].
  - intros [n [il [i [k [I [J [M X]]]]]]]. exists (n, true, il). split; [exact I|]. apply in_flat_map. exists i. split; [exact J|].
    unfold member in M. destruct (bi_req i) as [r|] eqn:R; [|discriminate M]. unfold on_p2p.
    rewrite <- andb_assoc in M. apply andb_true_iff in M. destruct M as [_ M]. cbn [andb]. rewrite M. left. symmetry. exact X.
Qed.
End Spec.

(* ---------- a case ---------- *)

Definition ex_fmt (z : Z) : string := if Z.eqb z 1 then "bond1" else if Z.eqb z 2 then "bond2" else "bond9".
Definition ex_req (k : Z) (p : bool) : option breq := Some (mk_br k None p).
Definition ex_if (n : string) (x : Z) (lk : nat) (r : option breq) : bintf := mk_bi n n x lk false r ["s"] [("ipv4", VStr n); ("mtu", VInt 9000)].
Definition ex_l : list bintf :=
  [ex_if "eth1" 1 0 (ex_req 2 false); ex_if "eth2" 2 1 (ex_req 1 true); ex_if "eth3" 3 2 (ex_req 2 true); ex_if "eth4" 4 3 None; ex_if "eth5" 5 4 (ex_req 2 false)].
Definition ex_count (k : nat) : nat := if Nat.eqb k 4 then 3 else 2.

Example ex_bond : bond_node ex_fmt ex_count true None ex_l =
  ([mk_bi "eth1" "eth1" 1 0 false (ex_req 2 false) ["s"] [("mtu", VInt 9000); ("prefix", VBool false)];
    mk_bi "eth2" "eth2" 2 1 false (ex_req 1 true) ["s"] [("mtu", VInt 9000); ("prefix", VBool false)];
    mk_bi "eth3" "eth3" 3 2 false (ex_req 2 true) ["s"] [("mtu", VInt 9000); ("prefix", VBool false)];
    ex_if "eth4" 4 3 None; ex_if "eth5" 5 4 (ex_req 2 false)],
   [mk_bo "bond2" 2 50000 (mk_bd ["eth1"; "eth3"] "active-backup" ["s"] (Some "eth3") [("ipv4", VStr "eth1")]);
    mk_bo "bond1" 1 50001 (mk_bd ["eth2"] "active-backup" ["s"] (Some "eth2") [("ipv4", VStr "eth2")])],
   [BLink "eth5"], true).
Proof. vm_compute. reflexivity. Qed.

(* Interface 2 of h is the only member of bond 1, so the bond interface is called bond1, but the link and the neighbor know
   it as bond2. *)
Definition ex_names : names :=
  mk_nm [[("h", "eth2"); ("s", "swp1")]; [("h", "eth1"); ("s", "swp2")]] [("h", [[("s", "swp1")]; [("s", "swp2")]]); ("s", [[("h", "eth2")]; [("h", "eth1")]])].

Theorem bond_name_refuted : exists i,
  map bo_ifname (snd (fst (fst (bond_node ex_fmt ex_count true None [i])))) = ["bond1"] /\
  rename_all ex_fmt (events ex_count [("h", true, [i])]) ex_names =
    mk_nm [[("h", "bond2"); ("s", "swp1")]; [("h", "eth1"); ("s", "swp2")]]
          [("h", [[("s", "swp1")]; [("s", "swp2")]]); ("s", [[("h", "bond2")]; [("h", "bond2")]])].
Proof. exists (ex_if "eth2" 2 0 (ex_req 1 false)). split; vm_compute; reflexivity. Qed.

Print Assumptions bond_interfaces_exact.
Print Assumptions bond_members_exact.
Print Assumptions bond_neighbor_names_exact.
Print Assumptions link_names_exact.
Print Assumptions bond_events_exact.
Print Assumptions bond_name_refuted.
