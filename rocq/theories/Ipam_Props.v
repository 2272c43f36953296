(* Properties C07-C09: interface addresses on a link. *)
From Coq Require Import String ZArith Lia Bool List Permutation Sorted.
From Verif Require Import Base Pool_Model Pool_Props Ipam_Model.
Import ListNotations.
Open Scope Z_scope.

(* ------------------------------------------------------------------ *)
(* Specification                                                        *)

Definition valid_net (w : Z) (p : network) : Prop := 0 <= net_plen p <= w.

(* a link without user-specified interface addresses *)
Definition no_static (l : link) : Prop := forall i, In i (l_intfs l) -> if_addr i = ANone.

(* link type p2p is only accepted with two nodes (links.py:1009-1015) *)
Definition p2p_has_two (l : link) : Prop := l_p2p l = true -> length (l_intfs l) = 2%nat.

(* every interface has an address of the prefix length of the link, inside the link prefix *)
Definition addressed_in (w : Z) (p : network) (res : list intf) : Prop :=
  forall i, In i res -> exists a pl, if_addr i = AAddr a pl /\ in_net w a p.

Definition addr_list (res : list intf) : list aval := map if_addr res.

Definition is_network_or_broadcast (w : Z) (p : network) (a : Z) : Prop :=
  a = net_addr p \/ a = net_addr p + net_size w p - 1.

(* ------------------------------------------------------------------ *)
(* Lemmas                                                               *)

Lemma size_pos : forall w p, valid_net w p -> 0 < net_size w p.
Proof. intros w p [H1 H2]. apply Z.pow_pos_nonneg; lia. Qed.

Lemma nth_ip_in : forall w p h, 0 <= h < net_size w p -> nth_ip w p h = Some (net_addr p + h).
Proof.
  intros w p h [H1 H2]. unfold nth_ip.
  apply Z.leb_le in H1. apply Z.ltb_lt in H2. now rewrite H1, H2.
Qed.

Definition gw_extra (gw : option Z) (c : Z) : Z :=
  match gw with Some g => if c <=? g then 1 else 0 | None => 0 end.

Lemma seq_spec : forall w p gw l count start ok res,
  (forall i, In i l -> if_addr i = ANone) ->
  0 <= count + start ->
  count + start + Z.of_nat (length l) + gw_extra gw (count + start) <= net_size w p ->
  sequential_loop w p gw count start l = (ok, res) ->
  ok = true /\ exists offs,
    map if_addr res = map (fun o => AAddr (net_addr p + o) (net_plen p)) offs /\
    map if_pos res = map if_pos l /\ map if_node res = map if_node l /\
    StronglySorted Z.lt offs /\
    (forall o, In o offs -> count + start <= o < count + start + Z.of_nat (length l) + gw_extra gw (count + start)) /\
    (forall g, gw = Some g -> ~ In g offs).
Proof.
  intros w p gw. induction l as [|i r IH]; intros count start ok res Hn H0 Hs H.
  - simpl in H. inversion H; subst. split; auto. exists []. repeat split; auto; try constructor; try (exfalso; assumption).
  - cbn [sequential_loop] in H.
    set (start' := match gw with Some g => if count + start =? g then start + 1 else start | None => start end) in *.
    assert (Hc : count + start <= count + start' /\
                 (count + 1 + start' + gw_extra gw (count + 1 + start')
                   <= count + start + 1 + gw_extra gw (count + start)) /\
                 (forall g, gw = Some g -> count + start' <> g) /\
                 count + start' + 1 + gw_extra gw (count + start' + 1) <= count + start + 1 + gw_extra gw (count + start)).
    { unfold start', gw_extra. destruct gw as [g|].
      - destruct (count + start =? g) eqn:E.
        + apply Z.eqb_eq in E.
          destruct (count + start <=? g) eqn:E1; [|apply Z.leb_gt in E1; lia].
          destruct (count + 1 + (start + 1) <=? g) eqn:E2; [apply Z.leb_le in E2; lia|].
          destruct (count + (start + 1) + 1 <=? g) eqn:E3; [apply Z.leb_le in E3; lia|].
          repeat split; try lia. intros g' Hg; inversion Hg; lia.
        + apply Z.eqb_neq in E.
          destruct (count + start <=? g) eqn:E1; destruct (count + 1 + start <=? g) eqn:E2;
          destruct (count + start + 1 <=? g) eqn:E3;
          repeat match goal with
            | H : (_ <=? _) = true |- _ => apply Z.leb_le in H
            | H : (_ <=? _) = false |- _ => apply Z.leb_gt in H end;
          repeat split; try lia; intros g' Hg; inversion Hg; lia.
      - repeat split; try lia. discriminate. }
    destruct Hc as [Hc1 [Hc2 [Hc3 Hc4]]].
    assert (Xtra : forall c, 0 <= gw_extra gw c <= 1).
    { intros c; unfold gw_extra; destruct gw; try lia. destruct (c <=? z); lia. }
    assert (Hlen : Z.of_nat (length (i :: r)) = 1 + Z.of_nat (length r)) by (simpl length; lia).
    rewrite Hlen in *.
    rewrite (Hn i (or_introl eq_refl)) in H. cbn [set_addr] in H.
    pose proof (Xtra (count + 1 + start')) as X1.
    pose proof (Xtra (count + start' + 1)) as X2.
    rewrite (nth_ip_in w p (count + start')) in H by lia.
    destruct (sequential_loop w p gw (count + 1) start' r) as [oks vs] eqn:R.
    assert (Hok : ok = oks) by (inversion H; reflexivity).
    assert (Hres : res = with_addr i (AAddr (net_addr p + (count + start')) (net_plen p)) :: vs) by congruence.
    clear H. rewrite Hok, Hres. clear Hok Hres.
    specialize (IH (count + 1) start' oks vs). destruct IH as [IH1 [offs [A1 [A2 [A3 [A4 [A5 A6]]]]]]]; auto.
    + intros j Hj; apply Hn; right; auto.
    + lia.
    + lia.
    + subst oks. split; auto. exists (count + start' :: offs).
      cbn [map In with_addr if_addr if_pos if_node]. rewrite A1, A2, A3. repeat split; auto.
      * constructor; auto. apply Forall_forall. intros o Ho. apply A5 in Ho. lia.
      * destruct H as [H|H]; [lia|]. apply A5 in H. lia.
      * destruct H as [H|H]; [lia|]. apply A5 in H. lia.
      * intros g Hg [H|H]; [eapply Hc3; eauto | eapply A6; eauto].
Qed.

Lemma sorted_NoDup : forall l, StronglySorted Z.lt l -> NoDup l.
Proof.
  induction l as [|a r IH]; intros H; constructor; inversion H; subst; auto.
  intros C. rewrite Forall_forall in H3. apply H3 in C. lia.
Qed.

Lemma insert_perm : forall i l, Permutation (i :: l) (insert_by_node i l).
Proof.
  induction l as [|j r IH]; simpl; auto.
  destruct (String.leb (if_node i) (if_node j)); auto.
  rewrite perm_swap. constructor. auto.
Qed.

Lemma sort_perm : forall l, Permutation l (sort_by_node l).
Proof.
  induction l as [|i r IH]; simpl; auto.
  rewrite <- insert_perm. constructor; auto.
Qed.

Lemma max_id_bound : forall ids l mx, max_id ids l = Some mx ->
  forall i, In i (l_intfs l) -> ids (if_node i) <= mx.
Proof.
  intros ids l mx H. unfold max_id in H. destruct (l_intfs l) as [|a r]; [discriminate|].
  inversion H; subst. clear H.
  assert (G : forall xs acc, acc <= fold_left Z.max xs acc /\ forall x, In x xs -> x <= fold_left Z.max xs acc).
  { induction xs as [|x xs IH]; intros acc; simpl; [split; [lia|tauto]|].
    destruct (IH (Z.max acc x)) as [I1 I2]. split; [lia|].
    intros y [Hy|Hy]; [subst; lia | auto]. }
  intros i [Hi|Hi]; [subst a|].
  - apply (proj1 (G _ _)).
  - apply (proj2 (G _ _)). apply in_map_iff. eauto.
Qed.

Lemma id_loop_spec : forall w ids p l ok res,
  (forall i, In i l -> if_addr i = ANone) ->
  (forall i, In i l -> 0 <= ids (if_node i) < net_size w p) ->
  id_loop w ids p l = (ok, res) ->
  ok = true /\
  map if_addr res = map (fun i => AAddr (net_addr p + ids (if_node i)) (net_plen p)) l /\
  map if_pos res = map if_pos l /\ map if_node res = map if_node l.
Proof.
  intros w ids p. induction l as [|i r IH]; intros ok res Hn Hr H.
  - simpl in H; inversion H; subst; auto.
  - cbn [id_loop] in H. rewrite (Hn i (or_introl eq_refl)) in H. cbn [set_addr] in H.
    rewrite nth_ip_in in H by (apply Hr; left; auto).
    destruct (id_loop w ids p r) as [oks vs] eqn:R. inversion H; subst.
    destruct (IH ok vs) as [I1 [I2 [I3 I4]]]; auto.
    + intros j Hj; apply Hn; right; auto.
    + intros j Hj; apply Hr; right; auto.
    + subst. simpl. rewrite I2, I3, I4. auto.
Qed.

Lemma in_map_addr : forall res i, In i res -> In (if_addr i) (map if_addr res).
Proof. intros; now apply in_map. Qed.

(* All policies in terms of offsets inside the prefix. *)
Lemma auto_offsets : forall w ids p l pol ok res,
  valid_net w p -> l_intfs l <> [] -> no_static l -> p2p_has_two l ->
  (forall i, In i (l_intfs l) -> 1 <= ids (if_node i)) ->
  ipam_policy w ids p l = Some pol -> pol <> PError ->
  ipam_run w ids pol p l = (ok, res) ->
  ~ (pol = PIdBased /\ net_size w p = 2) ->
  ok = true /\ Permutation (map if_pos res) (map if_pos (l_intfs l)) /\
  exists offs pl, map if_addr res = map (fun o => AAddr (net_addr p + o) pl) offs /\
    (forall o, In o offs -> 0 <= o < net_size w p) /\
    (pol <> PIdBased -> NoDup offs) /\
    (pol = PIdBased -> offs = map (fun i => ids (if_node i)) (l_intfs l)) /\
    ((pol = PLoopback /\ offs = [0] /\ fst (usable w p l) = 1 /\ pl = w) \/
     (pol <> PLoopback /\ pl = net_plen p /\
      (net_size w p > 2 -> forall o, In o offs -> 1 <= o <= net_size w p - 2 /\
         (gwid0 l < 0 -> o <= net_size w p + gwid0 l - 1) /\
         (pol = PSequential -> gwid0 l <> 0 -> o <> gwid0 l)))).
Proof.
  intros w ids p l pol ok res V Hne Hns Hp2 Hid Hpol Herr Hrun Hx.
  pose proof (size_pos w p V) as SP.
  unfold ipam_policy in Hpol.
  destruct (l_p2p l && (gwid0 l =? 0)) eqn:E1.
  - (* link type p2p, no gateway *)
    apply andb_true_iff in E1. destruct E1 as [E1 E1'].
    apply Z.eqb_eq in E1'.
    destruct (net_size w p >? 1) eqn:E2; inversion Hpol; subst; [|contradiction].
    rewrite Z.gtb_lt in E2. cbn [ipam_run] in Hrun. unfold ipam_p2p in Hrun.
    pose proof (sort_perm (l_intfs l)) as SPm.
    assert (L2 : length (sort_by_node (l_intfs l)) = 2%nat).
    { rewrite <- (Permutation_length SPm). apply Hp2; auto. }
    assert (St : start_of w p = 0 \/ (start_of w p = 1 /\ net_size w p > 2)).
    { unfold start_of. destruct (net_size w p >? 2) eqn:E3; auto. rewrite Z.gtb_lt in E3. right; lia. }
    assert (N4 : net_size w p > 2 -> 4 <= net_size w p).
    { intros G. unfold net_size in *. destruct V as [V1 V2].
      assert (2 < w - net_plen p \/ w - net_plen p = 2 \/ w - net_plen p = 1 \/ w - net_plen p = 0) by lia.
      destruct H as [H|[H|[H|H]]]; try (rewrite H in *; change (2^2) with 4 in *; change (2^1) with 2 in *; change (2^0) with 1 in *; lia).
      assert (2 ^ 2 <= 2 ^ (w - net_plen p)) by (apply Z.pow_le_mono_r; lia).
      change (2^2) with 4 in *. lia. }
    apply seq_spec in Hrun.
    + destruct Hrun as [-> [offs [A1 [A2 [A3 [A4 [A5 A6]]]]]]]. split; auto. split.
      { rewrite A2. apply Permutation_map. now symmetry. }
      exists offs, (net_plen p). split; auto. rewrite L2 in A5. simpl gw_extra in A5.
      split; [intros o Ho; apply A5 in Ho; lia|].
      split; [intros _; now apply sorted_NoDup|]. split; [discriminate|].
      right. split; [discriminate|]. split; auto. intros G o Ho. apply A5 in Ho.
      destruct St as [St|[St _]].
      { exfalso. unfold start_of in St. destruct (net_size w p >? 2) eqn:E3; [lia|].
        rewrite Z.gtb_ltb in E3. apply Z.ltb_ge in E3. lia. }
      specialize (N4 G). split; [lia|]. split; [lia|]. intros Q; discriminate.
    + intros i Hi. apply Hns. eapply Permutation_in; [symmetry; exact SPm|auto].
    + lia.
    + rewrite L2. simpl gw_extra. destruct St as [St|[St G]]; [lia|]. specialize (N4 G). lia.
  - destruct (negb (net_size w p >? 2) && (net_size w p =? 2) && Nat.eqb (length (l_intfs l)) 2) eqn:E2.
    + (* two interfaces on a two-address prefix *)
      inversion Hpol; subst. apply andb_true_iff in E2. destruct E2 as [E2 E3].
      apply andb_true_iff in E2. destruct E2 as [_ E2]. apply Z.eqb_eq in E2. apply Nat.eqb_eq in E3.
      cbn [ipam_run] in Hrun. unfold ipam_p2p in Hrun.
      pose proof (sort_perm (l_intfs l)) as SPm.
      assert (L2 : length (sort_by_node (l_intfs l)) = 2%nat).
      { rewrite <- (Permutation_length SPm). auto. }
      assert (St : start_of w p = 0) by (unfold start_of; rewrite E2; reflexivity).
      apply seq_spec in Hrun.
      * destruct Hrun as [-> [offs [A1 [A2 [A3 [A4 [A5 A6]]]]]]]. split; auto. split.
        { rewrite A2. apply Permutation_map. now symmetry. }
        exists offs, (net_plen p). split; auto. rewrite L2 in A5. simpl gw_extra in A5.
        split; [intros o Ho; apply A5 in Ho; lia|].
        split; [intros _; now apply sorted_NoDup|]. split; [discriminate|].
        right. split; [discriminate|]. split; auto. lia.
      * intros i Hi. apply Hns. eapply Permutation_in; [symmetry; exact SPm|auto].
      * lia.
      * rewrite L2. simpl gw_extra. lia.
    + destruct (max_id ids l) as [mx|] eqn:Emx; [|discriminate].
      destruct (usable w p l) as [psize extra] eqn:U.
      assert (HU : (net_size w p > 2 /\ psize <= net_size w p - 2 /\
                     (gwid0 l < 0 -> psize <= net_size w p + gwid0 l - 1) /\
                     (gwid0 l > 0 -> extra = 1) /\ (gwid0 l <= 0 -> extra = 0)) \/
                   (net_size w p <= 2 /\ psize = net_size w p /\ extra = 0)).
      { unfold usable in U. destruct (net_size w p >? 2) eqn:G.
        - rewrite Z.gtb_lt in G. left.
          destruct (gwid0 l >? 0) eqn:G1; destruct (gwid0 l <? 0) eqn:G2;
          rewrite ?Z.gtb_ltb in G1;
          repeat match goal with
            | H : (_ <? _) = true |- _ => apply Z.ltb_lt in H
            | H : (_ <? _) = false |- _ => apply Z.ltb_ge in H end;
          inversion U; subst; repeat split; try lia.
        - rewrite Z.gtb_ltb in G. apply Z.ltb_ge in G. right. inversion U; subst. repeat split; lia. }
      inversion Hpol as [Hpol']. clear Hpol.
      destruct (psize =? 1) eqn:P1.
      { (* loopback *)
        apply Z.eqb_eq in P1.
        destruct (Nat.eqb (length (l_intfs l)) 1) eqn:L1; [|subst; contradiction].
        apply Nat.eqb_eq in L1. rewrite <- Hpol' in *.
        cbn [ipam_run] in Hrun. unfold ipam_loopback in Hrun. inversion Hrun; subst ok res. clear Hrun.
        split; auto. split.
        { rewrite map_map. simpl. apply Permutation_refl. }
        destruct (l_intfs l) as [|i0 [|i1 r]] eqn:Li; simpl in L1; try discriminate.
        exists [0], w. simpl. rewrite Z.add_0_r. split; auto.
        split; [intros o [<-|[]]; lia|].
        split; [intros _; constructor; auto; constructor|]. split; [discriminate|].
        left. rewrite P1. auto. }
      apply Z.eqb_neq in P1.
      destruct (mx <=? psize) eqn:P2.
      { (* id based *)
        apply Z.leb_le in P2. rewrite <- Hpol' in *.
        cbn [ipam_run] in Hrun.
        assert (Bd : forall i, In i (l_intfs l) -> 1 <= ids (if_node i) <= psize).
        { intros i Hi. split; [auto|]. pose proof (max_id_bound ids l mx Emx i Hi). lia. }
        assert (Big : net_size w p > 2).
        { destruct HU as [[G _]|[G [Q1 Q2]]]; auto.
          assert (net_size w p <> 2) by (intros C; apply Hx; auto). 
          assert (net_size w p = 1) by lia. lia. }
        destruct HU as [[_ [HU1 [HU2 _]]]|[C _]]; [|lia].
        apply id_loop_spec in Hrun; auto.
        - destruct Hrun as [-> [A1 [A2 A3]]]. split; auto. split; [rewrite A2; auto|].
          exists (map (fun i => ids (if_node i)) (l_intfs l)), (net_plen p).
          split; [rewrite A1, map_map; auto|].
          assert (Bo : forall o, In o (map (fun i => ids (if_node i)) (l_intfs l)) -> 1 <= o <= psize).
          { intros o Ho. apply in_map_iff in Ho. destruct Ho as [i [<- Hi]]. auto. }
          split; [intros o Ho; apply Bo in Ho; lia|].
          split; [intros C; contradiction C; auto|]. split; auto.
          right. split; [discriminate|]. split; auto. intros _ o Ho. apply Bo in Ho.
          split; [lia|]. split; [intros Q; specialize (HU2 Q); lia|]. discriminate.
        - intros i Hi. specialize (Bd i Hi). lia. }
      destruct (Z.of_nat (length (l_intfs l)) + extra <=? psize) eqn:P3; [|subst; contradiction].
      apply Z.leb_le in P3. rewrite <- Hpol' in *. cbn [ipam_run] in Hrun. unfold ipam_sequential in Hrun.
      assert (Lp : (1 <= length (l_intfs l))%nat).
      { destruct (l_intfs l); [contradiction Hne; auto | simpl; lia]. }
      assert (Gx : forall c, 0 <= gw_extra (l_gwid l) c <= 1).
      { intros c; unfold gw_extra; destruct (l_gwid l); try lia. destruct (c <=? z); lia. }
      assert (Bound : 0 + start_of w p + Z.of_nat (length (l_intfs l)) +
                      gw_extra (l_gwid l) (0 + start_of w p) <= net_size w p /\
                      (net_size w p > 2 -> start_of w p = 1 /\
                        Z.of_nat (length (l_intfs l)) + gw_extra (l_gwid l) 1 <= psize)).
      { destruct HU as [[G [HU1 [HU2 [HU3 HU4]]]]|[G [Q1 Q2]]].
        - assert (St : start_of w p = 1).
          { unfold start_of. destruct (net_size w p >? 2) eqn:E; auto.
            rewrite Z.gtb_ltb in E. apply Z.ltb_ge in E. lia. }
          rewrite St. change (0 + 1) with 1.
          assert (Hx2 : gw_extra (l_gwid l) 1 <= extra).
          { unfold gw_extra, gwid0 in *. destruct (l_gwid l) as [g|]; [|lia].
            destruct (1 <=? g) eqn:E; [apply Z.leb_le in E; lia|]. destruct (Z_gt_le_dec g 0); lia. }
          split; [lia|]. intros _. split; auto. lia.
        - assert (St : start_of w p = 0).
          { unfold start_of. destruct (net_size w p >? 2) eqn:E; auto. rewrite Z.gtb_lt in E. lia. }
          rewrite St. specialize (Gx (0+0)).
          assert (net_size w p = 2) by lia.
          assert (length (l_intfs l) <> 2%nat).
          { intros C. rewrite C, H in E2. simpl in E2. discriminate. }
          split; [lia|]. intros C; lia. }
      destruct Bound as [B1 B2].
      apply seq_spec in Hrun; auto.
      * destruct Hrun as [-> [offs [A1 [A2 [A3 [A4 [A5 A6]]]]]]]. split; auto. split; [rewrite A2; auto|].
        exists offs, (net_plen p). split; auto.
        assert (S0 : 0 <= start_of w p) by (unfold start_of; destruct (net_size w p >? 2); lia).
        split; [intros o Ho; apply A5 in Ho; lia|].
        split; [intros _; now apply sorted_NoDup|]. split; [discriminate|].
        right. split; [discriminate|]. split; auto. intros G o Ho.
        assert (Ho' := Ho). apply A5 in Ho. destruct (B2 G) as [B3 B4]. rewrite B3 in *. change (0 + 1) with 1 in *.
        destruct HU as [[_ [HU1 [HU2 _]]]|[C _]]; [|lia].
        split; [lia|]. split; [intros Q; specialize (HU2 Q); lia|].
        intros _ Hg C. subst o. unfold gwid0 in *. destruct (l_gwid l) as [g|]; [|lia].
        apply (A6 g eq_refl Ho').
      * unfold start_of; destruct (net_size w p >? 2); lia.
Qed.

(* ------------------------------------------------------------------ *)
(* C07 *)

(* Every policy chosen automatically assigns addresses inside the prefix to every interface. *)
Theorem auto_addresses_in_prefix : forall w ids p l pol ok res,
  valid_net w p -> l_intfs l <> [] -> no_static l -> p2p_has_two l ->
  (forall i, In i (l_intfs l) -> 1 <= ids (if_node i)) ->
  ipam_policy w ids p l = Some pol -> pol <> PError ->
  ipam_run w ids pol p l = (ok, res) ->
  ~ (pol = PIdBased /\ net_size w p = 2) ->
  ok = true /\ Permutation (map if_pos res) (map if_pos (l_intfs l)) /\ addressed_in w p res.
Proof.
  intros w ids p l pol ok res V Hne Hns Hp2 Hid Hpol Herr Hrun Hx.
  destruct (auto_offsets w ids p l pol ok res V Hne Hns Hp2 Hid Hpol Herr Hrun Hx)
    as [A [B [offs [pl [C [D _]]]]]].
  split; auto. split; auto. intros i Hi.
  assert (In (if_addr i) (map if_addr res)) by now apply in_map.
  rewrite C in H. apply in_map_iff in H. destruct H as [o [Ho Hin]].
  exists (net_addr p + o), pl. split; auto. apply D in Hin.
  unfold in_net, net_size in *. lia.
Qed.

(* Different interfaces get different addresses; the id-based policy needs every node to be
   attached once (and node ids to be unique, C03). *)
Theorem auto_addresses_distinct : forall w ids p l pol ok res,
  valid_net w p -> l_intfs l <> [] -> no_static l -> p2p_has_two l ->
  (forall i, In i (l_intfs l) -> 1 <= ids (if_node i)) ->
  ipam_policy w ids p l = Some pol -> pol <> PError ->
  ipam_run w ids pol p l = (ok, res) ->
  ~ (pol = PIdBased /\ net_size w p = 2) ->
  (pol = PIdBased -> NoDup (map if_node (l_intfs l)) /\
     forall i j, In i (l_intfs l) -> In j (l_intfs l) ->
       ids (if_node i) = ids (if_node j) -> if_node i = if_node j) ->
  NoDup (addr_list res).
Proof.
  intros w ids p l pol ok res V Hne Hns Hp2 Hid Hpol Herr Hrun Hx Huniq.
  destruct (auto_offsets w ids p l pol ok res V Hne Hns Hp2 Hid Hpol Herr Hrun Hx)
    as [A [B [offs [pl [C [D [E [F _]]]]]]]].
  unfold addr_list. rewrite C. apply NoDup_map_inj.
  - intros x y _ _ H. inversion H. lia.
  - destruct pol; try (apply E; discriminate).
    rewrite (F eq_refl). destruct (Huniq eq_refl) as [N1 N2].
    assert (Q : forall xs, incl xs (l_intfs l) -> NoDup (map if_node xs) ->
               NoDup (map (fun i => ids (if_node i)) xs)).
    { induction xs as [|x xs IH]; simpl; intros I ND; constructor; inversion ND; subst.
      - intros Hin. apply in_map_iff in Hin. destruct Hin as [y [Hy Hin]].
        apply H1. rewrite (N2 x y); auto.
        + now apply in_map.
        + apply I; left; auto.
        + apply I; right; auto.
      - apply IH; auto. intros z Hz; apply I; right; auto. }
    apply Q; auto. intros z; auto.
Qed.

(* On prefixes with more than two addresses nobody gets the network or broadcast address,
   unless a negative gateway id leaves a single usable address. *)
Theorem auto_addresses_have_host_bits : forall w ids p l pol ok res,
  valid_net w p -> l_intfs l <> [] -> no_static l -> p2p_has_two l ->
  (forall i, In i (l_intfs l) -> 1 <= ids (if_node i)) ->
  ipam_policy w ids p l = Some pol -> pol <> PError ->
  ipam_run w ids pol p l = (ok, res) ->
  net_size w p > 2 -> net_size w p + gwid0 l <> 2 ->
  forall i a pl, In i res -> if_addr i = AAddr a pl -> ~ is_network_or_broadcast w p a.
Proof.
  intros w ids p l pol ok res V Hne Hns Hp2 Hid Hpol Herr Hrun Hbig Hgw i a pl Hi Ha.
  destruct (auto_offsets w ids p l pol ok res V Hne Hns Hp2 Hid Hpol Herr Hrun)
    as [A [B [offs [pl' [C [D [E [F G]]]]]]]]; [intros [_ ?]; lia|].
  assert (In (if_addr i) (map if_addr res)) by now apply in_map.
  rewrite C, Ha in H. apply in_map_iff in H. destruct H as [o [Ho Hin]]. inversion Ho; subst.
  destruct G as [[_ [_ [G _]]]|[_ [_ G]]].
  - exfalso. unfold usable in G. assert (Hb : net_size w p >? 2 = true) by (rewrite Z.gtb_lt; lia).
    rewrite Hb in G. cbn [fst] in G.
    assert (4 <= net_size w p).
    { unfold net_size in *. destruct V as [V1 V2].
      assert (Hc : 2 <= w - net_plen p \/ w - net_plen p = 1 \/ w - net_plen p = 0) by lia.
      destruct Hc as [H|[H|H]]; try (rewrite H in *; change (2^1) with 2 in *; change (2^0) with 1 in *; lia).
      assert (2 ^ 2 <= 2 ^ (w - net_plen p)) by (apply Z.pow_le_mono_r; lia).
      change (2^2) with 4 in *. lia. }
    destruct (gwid0 l <? 0) eqn:E0; [apply Z.ltb_lt in E0|apply Z.ltb_ge in E0]; lia.
  - destruct (G Hbig o Hin) as [G1 _]. unfold is_network_or_broadcast. lia.
Qed.

Definition ids3 (s : string) : Z :=
  if String.eqb s "a" then 7 else if String.eqb s "b" then 2 else 1.

Definition intf0 (n : nat) (nd : string) : intf := mk_intf n nd ANone.

(* /29 with gateway 2: id 7 does not fit, so addresses are sequential and skip the gateway *)
Definition ex_net : network := mk_net 167772160 29.
Definition ex_link : link := mk_link false (Some 2) [intf0 0 "a"; intf0 1 "b"; intf0 2 "c"].

Example auto_addresses_case :
  ipam_policy 32 ids3 ex_net ex_link = Some PSequential /\
  valid_net 32 ex_net /\ no_static ex_link /\ p2p_has_two ex_link /\ net_size 32 ex_net + gwid0 ex_link <> 2 /\
  addr_list (snd (ipam_run 32 ids3 PSequential ex_net ex_link)) =
    [AAddr 167772161 29; AAddr 167772163 29; AAddr 167772164 29].
Proof.
  split; [vm_compute; reflexivity|]. split; [unfold valid_net; simpl; lia|].
  split; [intros i [<-|[<-|[<-|[]]]]; reflexivity|].
  split; [intros H; discriminate|]. split; [vm_compute; discriminate|]. vm_compute. reflexivity.
Qed.

(* The exceptions in the statements are real. *)

(* /30 with gateway id -2 and a single interface: the interface gets the network address,
   and the host-bits check does not notice because the address is given a /32. *)
Theorem single_usable_address_refuted :
  exists w ids p l pol ok res i a pl,
    valid_net w p /\ no_static l /\ ipam_policy w ids p l = Some pol /\ pol <> PError /\
    ipam_run w ids pol p l = (ok, res) /\ ok = true /\ In i res /\ if_addr i = AAddr a pl /\
    net_size w p > 2 /\ is_network_or_broadcast w p a /\ host_bits_ok w a pl = true.
Proof.
  exists 32, ids3, (mk_net 167772160 30), (mk_link false (Some (-2)) [intf0 0 "b"]).
  eexists; eexists; eexists; eexists; eexists; eexists.
  split; [unfold valid_net; simpl; lia|]. split; [intros i [<-|[]]; reflexivity|].
  split; [vm_compute; reflexivity|]. split; [discriminate|]. split; [vm_compute; reflexivity|].
  split; [reflexivity|]. split; [left; reflexivity|]. split; [reflexivity|].
  split; [reflexivity|]. split; [left; reflexivity|]. reflexivity.
Qed.

(* A node with id 2 on a /31 stub link is rejected although ids 1 and 3 work. *)
Theorem id_based_slash31_refuted :
  exists p l, valid_net 32 p /\ no_static l /\
    ipam_policy 32 ids3 p l = Some PIdBased /\ fst (ipam_run 32 ids3 PIdBased p l) = false /\
    (forall k, k = 1 \/ k = 3 -> exists pol, ipam_policy 32 (fun _ => k) p l = Some pol /\
        fst (ipam_run 32 (fun _ => k) pol p l) = true).
Proof.
  exists (mk_net 167772160 31), (mk_link false None [intf0 0 "b"]).
  split; [unfold valid_net; simpl; lia|]. split; [intros i [<-|[]]; reflexivity|].
  split; [vm_compute; reflexivity|]. split; [vm_compute; reflexivity|].
  intros k [->| ->]; [exists PIdBased | exists PSequential]; split; vm_compute; reflexivity.
Qed.

(* A node attached twice gets the same address twice under the id-based policy. *)
Theorem id_based_same_node_twice_refuted :
  exists p l, valid_net 32 p /\ no_static l /\ ipam_policy 32 ids3 p l = Some PIdBased /\
    fst (ipam_run 32 ids3 PIdBased p l) = true /\
    ~ NoDup (addr_list (snd (ipam_run 32 ids3 PIdBased p l))).
Proof.
  exists (mk_net 167772160 24), (mk_link false None [intf0 0 "b"; intf0 1 "b"]).
  split; [unfold valid_net; simpl; lia|]. split; [intros i [<-|[<-|[]]]; reflexivity|].
  split; [vm_compute; reflexivity|]. split; [vm_compute; reflexivity|].
  vm_compute. intros H. inversion H. apply H2. left; reflexivity.
Qed.

(* ------------------------------------------------------------------ *)
(* C08 *)

Theorem auto_addresses_avoid_gateway : forall w ids p l pol ok res g,
  valid_net w p -> l_intfs l <> [] -> no_static l -> p2p_has_two l ->
  (forall i, In i (l_intfs l) -> 1 <= ids (if_node i)) ->
  (forall i, In i (l_intfs l) -> 0 <= gwid0 l -> ids (if_node i) <> gwid0 l) ->
  ipam_policy w ids p l = Some pol -> pol <> PError ->
  ipam_run w ids pol p l = (ok, res) ->
  net_size w p > 2 ->
  gateway_addr w p l = Some g ->
  forall i pl, In i res -> if_addr i <> AAddr g pl.
Proof.
  intros w ids p l pol ok res g V Hne Hns Hp2 Hid Hres Hpol Herr Hrun Hbig Hg i pl Hi Ha.
  destruct (auto_offsets w ids p l pol ok res V Hne Hns Hp2 Hid Hpol Herr Hrun)
    as [A [B [offs [pl' [C [D [E [F G]]]]]]]]; [intros [_ ?]; lia|].
  assert (H : In (if_addr i) (map if_addr res)) by now apply in_map.
  rewrite C, Ha in H. apply in_map_iff in H. destruct H as [o [Ho Hin]]. inversion Ho; subst pl'.
  assert (Hog : net_addr p + o = g) by congruence. clear Ho.
  unfold gateway_addr in Hg. destruct (gwid0 l =? 0) eqn:E0; [discriminate|]. apply Z.eqb_neq in E0.
  assert (Gv : (0 < gwid0 l /\ o = gwid0 l) \/ (gwid0 l < 0 /\ o = net_size w p + gwid0 l)).
  { unfold nth_ip in Hg. destruct (0 <=? gwid0 l) eqn:E1.
    - apply Z.leb_le in E1. destruct (gwid0 l <? net_size w p); [|discriminate].
      left. inversion Hg. lia.
    - apply Z.leb_gt in E1. destruct (- net_size w p <=? gwid0 l); [|discriminate].
      right. inversion Hg. lia. }
  destruct G as [[G1 [G2 [G3 _]]]|[G1 [_ G]]].
  - subst offs. destruct Hin as [<-|[]]. destruct Gv as [Gv|Gv]; [lia|].
    unfold usable in G3. assert (Hb : net_size w p >? 2 = true) by (rewrite Z.gtb_lt; lia).
    rewrite Hb in G3. cbn [fst] in G3.
    destruct (gwid0 l <? 0) eqn:E2; [apply Z.ltb_lt in E2|apply Z.ltb_ge in E2]; lia.
  - destruct (G Hbig o Hin) as [_ [G3 G4]].
    destruct Gv as [[Gv1 Gv2]|[Gv1 Gv2]].
    + destruct pol; try contradiction.
      * cbn in Hrun. unfold ipam_policy in Hpol.
        destruct (l_p2p l && (gwid0 l =? 0)); [destruct (net_size w p >? 1); discriminate|].
        destruct (negb (net_size w p >? 2) && (net_size w p =? 2) && _); [discriminate|].
        destruct (max_id ids l); [|discriminate]. destruct (usable w p l).
        destruct (_ =? 1); [destruct (Nat.eqb _ 1); discriminate|].
        destruct (_ <=? _); [discriminate|]. destruct (_ <=? _); discriminate.
      * (* p2p with more than two addresses only without gateway *)
        unfold ipam_policy in Hpol.
        destruct (l_p2p l && (gwid0 l =? 0)) eqn:Q.
        { apply andb_true_iff in Q. destruct Q as [_ Q]. apply Z.eqb_eq in Q. lia. }
        assert (Hb : net_size w p >? 2 = true) by (rewrite Z.gtb_lt; lia).
        rewrite Hb in Hpol. simpl in Hpol.
        destruct (max_id ids l); [|discriminate]. destruct (usable w p l).
        destruct (_ =? 1); [destruct (Nat.eqb _ 1); discriminate|].
        destruct (_ <=? _); [discriminate|]. destruct (_ <=? _); discriminate.
      * apply G4; auto; lia.
      * rewrite (F eq_refl) in Hin. apply in_map_iff in Hin. destruct Hin as [j [Hj Hin]].
        apply (Hres j Hin); lia.
    + specialize (G3 Gv1). lia.
Qed.

Example gateway_case :
  gateway_addr 32 ex_net ex_link = Some 167772162 /\
  (forall i, In i (l_intfs (mk_link false (Some (-2)) [intf0 0 "a"; intf0 1 "b"])) -> 1 <= ids3 (if_node i)) /\
  ipam_policy 32 ids3 ex_net (mk_link false (Some (-2)) [intf0 0 "a"; intf0 1 "b"]) = Some PSequential.
Proof.
  split; [vm_compute; reflexivity|]. split; [|vm_compute; reflexivity].
  intros i [<-|[<-|[]]]; vm_compute; discriminate.
Qed.

(* Exceptions: a /31 with a gateway, and an explicitly requested policy *)
Theorem gateway_collision_slash31_refuted :
  exists p l g, valid_net 32 p /\ no_static l /\ gateway_addr 32 p l = Some g /\
    ipam_policy 32 ids3 p l = Some PP2p /\
    In (AAddr g 31) (addr_list (snd (ipam_run 32 ids3 PP2p p l))).
Proof.
  exists (mk_net 167772160 31), (mk_link false (Some 1) [intf0 0 "a"; intf0 1 "b"]), 167772161.
  split; [unfold valid_net; simpl; lia|]. split; [intros i [<-|[<-|[]]]; reflexivity|].
  split; [vm_compute; reflexivity|]. split; [vm_compute; reflexivity|].
  vm_compute. right; left; reflexivity.
Qed.

Theorem gateway_collision_explicit_policy_refuted :
  exists p l g, valid_net 32 p /\ no_static l /\ gateway_addr 32 p l = Some g /\ net_size 32 p > 2 /\
    In (AAddr g 30) (addr_list (snd (ipam_run 32 ids3 PSequential p l))).
Proof.
  exists (mk_net 167772160 30), (mk_link false (Some (-2)) [intf0 0 "a"; intf0 1 "b"]), 167772162.
  split; [unfold valid_net; simpl; lia|]. split; [intros i [<-|[<-|[]]]; reflexivity|].
  split; [vm_compute; reflexivity|]. split; [reflexivity|].
  vm_compute. right; left; reflexivity.
Qed.

(* p2p addressing does not depend on the order of the interfaces in the topology file *)
Lemma leb_total : forall a b, String.leb a b = true \/ String.leb b a = true.
Proof. intros; apply String.leb_total. Qed.

Lemma insert_comm : forall i j l,
  if_node i <> if_node j -> insert_by_node i (insert_by_node j l) = insert_by_node j (insert_by_node i l).
Proof.
  intros i j l N.
  assert (Anti : forall a b, String.leb a b = true -> String.leb b a = true -> a = b)
    by (intros; apply String.leb_antisym; auto).
  assert (Tot : forall a b, String.leb a b = false -> String.leb b a = true).
  { intros a b H. destruct (String.leb_total a b); congruence. }
  assert (Tr : forall a b c, String.leb a b = true -> String.leb b c = true -> String.leb a c = true).
  { intros a b c. unfold String.leb.
    destruct (String.compare a b) eqn:Eab; destruct (String.compare b c) eqn:Ebc; try discriminate; intros _ _.
    - apply String.compare_eq_iff in Eab. subst. now rewrite Ebc.
    - apply String.compare_eq_iff in Eab. subst. now rewrite Ebc.
    - apply String.compare_eq_iff in Ebc. subst. now rewrite Eab.
    - destruct (String.compare a c) eqn:Eac; auto. exfalso.
      assert (L : forall a b c, String.compare a b = Lt -> String.compare b c = Lt -> String.compare a c = Lt).
      { clear. induction a as [|x a IH]; destruct b as [|y b]; destruct c as [|z c]; simpl; try discriminate; auto.
        intros H1 H2.
        destruct (Ascii.compare x y) eqn:Exy; try discriminate; destruct (Ascii.compare y z) eqn:Eyz; try discriminate.
        - apply Ascii.compare_eq_iff in Exy; apply Ascii.compare_eq_iff in Eyz; subst.
          assert (Ascii.compare z z = Eq) by (unfold Ascii.compare; apply N.compare_refl). rewrite H. eauto.
        - apply Ascii.compare_eq_iff in Exy; subst. now rewrite Eyz.
        - apply Ascii.compare_eq_iff in Eyz; subst. now rewrite Exy.
        - assert (Ascii.compare x z = Lt).
          { unfold Ascii.compare in *. rewrite N.compare_lt_iff in *. lia. }
          now rewrite H. }
      rewrite (L a b c Eab Ebc) in Eac. discriminate. }
  induction l as [|k r IH]; simpl.
  - destruct (String.leb (if_node i) (if_node j)) eqn:E1; destruct (String.leb (if_node j) (if_node i)) eqn:E2; auto.
    + exfalso; apply N; auto.
    + apply Tot in E1. congruence.
  - destruct (String.leb (if_node i) (if_node k)) eqn:Eik; destruct (String.leb (if_node j) (if_node k)) eqn:Ejk;
    simpl; rewrite ?Eik, ?Ejk; simpl.
    + destruct (String.leb (if_node i) (if_node j)) eqn:E1; destruct (String.leb (if_node j) (if_node i)) eqn:E2;
        simpl; rewrite ?Eik, ?Ejk; auto.
      * exfalso; apply N; auto.
      * apply Tot in E1. congruence.
    + destruct (String.leb (if_node j) (if_node i)) eqn:E2; auto.
      exfalso. assert (String.leb (if_node j) (if_node k) = true) by (eapply Tr; eauto). congruence.
    + destruct (String.leb (if_node i) (if_node j)) eqn:E2; auto.
      exfalso. assert (String.leb (if_node i) (if_node k) = true) by (eapply Tr; eauto). congruence.
    + now rewrite IH.
Qed.

Lemma sort_permutation_eq : forall l l', Permutation l l' ->
  NoDup (map if_node l) -> sort_by_node l = sort_by_node l'.
Proof.
  induction 1; simpl; intros ND; auto.
  - f_equal. inversion ND; auto.
  - apply insert_comm. inversion ND; subst. intros C. apply H1. left; auto.
  - rewrite IHPermutation1; auto. apply IHPermutation2.
    eapply Permutation_NoDup; [|exact ND]. apply Permutation_map; auto.
Qed.

Theorem p2p_addresses_order_independent : forall w p l l',
  Permutation (l_intfs l) (l_intfs l') -> NoDup (map if_node (l_intfs l)) ->
  ipam_p2p w p l = ipam_p2p w p l'.
Proof.
  intros w p l l' P N. unfold ipam_p2p. now rewrite (sort_permutation_eq _ _ P N).
Qed.

Example p2p_order_case :
  addr_list (snd (ipam_p2p 32 (mk_net 0 30) (mk_link true None [intf0 0 "z"; intf0 1 "b"])))
  = [AAddr 1 30; AAddr 2 30] /\
  map if_node (snd (ipam_p2p 32 (mk_net 0 30) (mk_link true None [intf0 0 "z"; intf0 1 "b"]))) = ["b"; "z"]%string.
Proof. split; vm_compute; reflexivity. Qed.

(* ------------------------------------------------------------------ *)
(* C09 *)

(* Independent specification: positions whose address occurred earlier (or is the gateway). *)
Definition addrs_of (l : list (string * option string)) : list string :=
  flat_map (fun e => match snd e with Some a => [a] | None => [] end) l.

Fixpoint repeated (earlier : list string) (l : list (string * option string)) : list string :=
  match l with
  | [] => []
  | (nd, None) :: r => repeated earlier r
  | (nd, Some a) :: r =>
      if in_dec string_dec a earlier then nd :: repeated earlier r
      else repeated (a :: earlier) r
  end.

Definition gw_list (gw : option string) : list string := match gw with Some g => [g] | None => [] end.

Lemma dup_loop_spec : forall l seen earlier,
  (forall a, In a earlier <-> In a (dkeys seen)) ->
  map fst (dup_loop seen l) = repeated earlier l.
Proof.
  induction l as [|[nd [a|]] r IH]; simpl; intros seen earlier H; auto.
  destruct (dget a seen) as [o|] eqn:E.
  - destruct (in_dec string_dec a earlier) as [Hi|Hi].
    + simpl. f_equal. auto.
    + exfalso. apply Hi. apply H. eapply dget_Some_key; eauto.
  - destruct (in_dec string_dec a earlier) as [Hi|Hi].
    + exfalso. apply H in Hi. apply dget_None in E. contradiction.
    + apply IH. intros b. apply dget_None in E. rewrite dkeys_dset_new by auto.
      rewrite in_app_iff. simpl. rewrite H. tauto.
Qed.

Lemma repeated_nil : forall l earlier,
  repeated earlier l = [] <->
  NoDup (addrs_of l) /\ (forall a, In a (addrs_of l) -> ~ In a earlier).
Proof.
  induction l as [|[nd [a|]] r IH]; simpl; intros earlier.
  - split; auto. intros _. split; [constructor|tauto].
  - destruct (in_dec string_dec a earlier) as [Hi|Hi].
    + split; [discriminate|]. intros [_ H]. exfalso. apply (H a); auto.
    + rewrite IH. split.
      * intros [H1 H2]. split.
        -- constructor; auto. intros C. apply (H2 a C). left; auto.
        -- intros b [Hb|Hb]; subst; auto. intros C. apply (H2 b Hb). right; auto.
      * intros [H1 H2]. inversion H1; subst. split; auto.
        intros b Hb [C|C]; subst; auto. apply (H2 b); auto.
  - apply IH.
Qed.

Theorem duplicate_check_exact : forall gw l,
  (check_duplicate_address gw l = [] <-> NoDup (gw_list gw ++ addrs_of l)) /\
  map fst (check_duplicate_address gw l) = repeated (gw_list gw) l.
Proof.
  intros gw l.
  assert (E : map fst (check_duplicate_address gw l) = repeated (gw_list gw) l).
  { apply dup_loop_spec. intros a. destruct gw; simpl; tauto. }
  split; auto.
  assert (N : check_duplicate_address gw l = [] <-> repeated (gw_list gw) l = []).
  { rewrite <- E. destruct (check_duplicate_address gw l); simpl; split; congruence. }
  rewrite N, repeated_nil. split.
  - intros [H1 H2]. apply NoDup_app_intro; auto.
    + destruct gw; simpl; repeat constructor; auto.
    + intros x Hx Hy. apply (H2 x Hy Hx).
  - intros H. apply NoDup_app_elim in H. destruct H as [_ [H2 H3]]. split; auto.
    intros a Ha C. apply (H3 a C Ha).
Qed.

(* every reported interface shares its address with the reported owner, which comes earlier *)
Lemma dup_loop_owner : forall l seen nd ow,
  In (nd, ow) (dup_loop seen l) ->
  exists a l1 l2, l = l1 ++ (nd, Some a) :: l2 /\ (dget a seen = Some ow \/ In (ow, Some a) l1).
Proof.
  induction l as [|[n0 [a|]] r IH]; simpl; intros seen nd ow H; [contradiction| |].
  - destruct (dget a seen) as [o|] eqn:E.
    + destruct H as [H|H].
      * inversion H; subst. exists a, [], r. auto.
      * destruct (IH seen nd ow H) as [b [l1 [l2 [-> Hb]]]]. exists b, ((n0, Some a) :: l1), l2.
        split; auto. destruct Hb; [auto|right; right; auto].
    + destruct (IH _ nd ow H) as [b [l1 [l2 [-> Hb]]]]. exists b, ((n0, Some a) :: l1), l2. split; auto.
      destruct Hb as [Hb|Hb]; [|right; right; auto].
      destruct (string_dec b a) as [->|Nb].
      * rewrite dget_dset_same in Hb. inversion Hb; subst. right; left; auto.
      * rewrite dget_dset_other in Hb by auto. auto.
  - destruct (IH seen nd ow H) as [b [l1 [l2 [-> Hb]]]]. exists b, ((n0, None) :: l1), l2.
    split; auto. destruct Hb; [auto|right; right; auto].
Qed.

Theorem duplicate_report_names_owner : forall gw l nd ow,
  In (nd, ow) (check_duplicate_address gw l) ->
  exists a l1 l2, l = l1 ++ (nd, Some a) :: l2 /\
    ((gw = Some a /\ ow = "gateway"%string) \/ In (ow, Some a) l1).
Proof.
  intros gw l nd ow H. apply dup_loop_owner in H.
  destruct H as [a [l1 [l2 [H1 H2]]]]. exists a, l1, l2. split; auto. destruct H2 as [H2|H2]; auto.
  destruct gw as [g|]; simpl in H2; [|discriminate].
  destruct (String.eqb a g) eqn:E; [|discriminate]. apply String.eqb_eq in E. subst.
  inversion H2. auto.
Qed.

Open Scope string_scope.
Example duplicate_check_case :
  check_duplicate_address (Some "10.0.0.1/24")
    [("a", Some "10.0.0.2/24"); ("b", None); ("c", Some "10.0.0.1/24"); ("d", Some "10.0.0.2/24")]
  = [("c", "gateway"); ("d", "a")].
Proof. reflexivity. Qed.

Print Assumptions auto_addresses_in_prefix.
Print Assumptions auto_addresses_distinct.
Print Assumptions auto_addresses_have_host_bits.
Print Assumptions single_usable_address_refuted.
Print Assumptions id_based_slash31_refuted.
Print Assumptions id_based_same_node_twice_refuted.
Print Assumptions auto_addresses_avoid_gateway.
Print Assumptions gateway_collision_slash31_refuted.
Print Assumptions gateway_collision_explicit_policy_refuted.
Print Assumptions p2p_addresses_order_independent.
Print Assumptions duplicate_check_exact.
Print Assumptions duplicate_report_names_owner.
