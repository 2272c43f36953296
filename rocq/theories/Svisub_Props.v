(* Trunks and VLAN subinterfaces (properties C114-C116). *)
From Coq Require Import String ZArith Lia Bool List.
From Verif Require Import Base Box_Model Box_Props Svi_Model Svi_Props.
Import ListNotations.
Open Scope Z_scope.

(* ---- VLAN ids of trunks ---- *)

Lemma vlan_ids_some : forall vlans l ids, vlan_ids vlans l = Some ids <->
  Forall2 (fun v id => exists x, dget v vlans = Some x /\ id = nv_id x) l ids.
Proof.
  intros vlans l. induction l as [|v r IH]; intros ids; cbn [vlan_ids].
  { split; [intros E; injection E as <-; constructor|intros F; inversion F; auto]. }
  split.
  - destruct (dget v vlans) as [x|] eqn:G; [|discriminate]. destruct (vlan_ids vlans r) as [i|]; [|discriminate].
    intros E. injection E as <-. constructor; [eauto|now apply IH].
  - intros F. inversion F as [|a b c d [x [G ->]] Q]; subst. rewrite G. apply IH in Q. now rewrite Q.
Qed.
Lemma vlan_ids_none : forall vlans l, vlan_ids vlans l = None <-> exists v, In v l /\ ~ In v (dkeys vlans).
Proof.
  intros vlans l. induction l as [|v r IH]; cbn [vlan_ids].
  { split; [discriminate|intros [v [[] _]]]. }
  destruct (dget v vlans) as [x|] eqn:G.
  - destruct (vlan_ids vlans r) as [i|].
    + split; [discriminate|]. intros [w [[<-|W] N]]; [elim N; eapply dget_Some_key; eauto|].
      assert (Some i = None) by (apply IH; eauto). discriminate.
    + split; [|auto]. intros _. destruct (proj1 IH eq_refl) as [w [W N]]. exists w. split; [now right|auto].
  - split; [|auto]. intros _. exists v. split; [now left|now apply dget_None].
Qed.

(* everything but the trunk *)
Definition same_but_trunk (i j : vintf) : Prop :=
  i_index j = i_index i /\ i_type j = i_type i /\ i_ifname j = i_ifname i /\ i_link j = i_link i /\ i_parent j = i_parent i /\
  i_loop j = i_loop i /\ i_fwd j = i_fwd i /\ i_vname j = i_vname i /\ i_ngb j = i_ngb i /\ i_saved j = i_saved i /\
  i_pidx j = i_pidx i /\ i_pname j = i_pname i /\ i_native j = i_native i /\ i_attr j = i_attr i /\
  p_access (i_vlan j) = p_access (i_vlan i) /\ p_native (i_vlan j) = p_native (i_vlan i) /\ p_mode (i_vlan j) = p_mode (i_vlan i) /\
  p_access_id (i_vlan j) = p_access_id (i_vlan i) /\ p_name (i_vlan j) = p_name (i_vlan i) /\ p_routed (i_vlan j) = p_routed (i_vlan i).

Definition trunk_after (vlans : dict nvlan) (i j : vintf) : Prop :=
  match p_trunk (i_vlan i) with
  | [] => j = i
  | tr => same_but_trunk i j /\ i_sub j = i_sub i /\ p_trunk (i_vlan j) = tr /\
          exists ids, p_trunk_id (i_vlan j) = Some ids /\ Forall2 (fun v id => exists x, dget v vlans = Some x /\ id = nv_id x) tr ids
  end.

(* C114: the VLAN ids of a trunk are the ids of its VLANs, in the same order *)
Theorem trunk_ids_exact : forall vlans l,
  match map_trunk_vlans vlans l with
  | Some l' => Forall2 (trunk_after vlans) l l'
  | None => exists i v, In i l /\ In v (p_trunk (i_vlan i)) /\ ~ In v (dkeys vlans)
  end.
Proof.
  intros vlans l. induction l as [|i r IH]; cbn [map_trunk_vlans]; [constructor|].
  destruct (map_trunk_vlans vlans r) as [r'|].
  2:{ destruct IH as [j [v [J X]]]. exists j, v. split; [now right|auto]. }
  destruct (p_trunk (i_vlan i)) as [|tr trs] eqn:P.
  { constructor; [|auto]. unfold trunk_after. now rewrite P. }
  destruct (vlan_ids vlans (tr :: trs)) as [ids|] eqn:E.
  - constructor; [|auto]. unfold trunk_after. rewrite P. split; [repeat split; reflexivity|]. split; [reflexivity|].
    cbn [set_trunk_id i_vlan p_trunk p_trunk_id]. split; [auto|]. exists ids. split; [auto|]. now apply vlan_ids_some.
  - apply vlan_ids_none in E. destruct E as [v [V N]]. exists i, v. split; [now left|]. now rewrite P.
Qed.

(* ---- subinterfaces ---- *)

Definition member (i : vintf) : Prop := i_type i = "vlan_member"%string.

(* positions of the interfaces attached to a link *)
Definition on_link (l : list vintf) (q : nat) : list nat :=
  filter (fun k => match nth_error l k with Some i => match i_link i with Some x => Nat.eqb x q | None => false end | None => false end) (seq 0 (length l)).

Lemma filter_seq_shift : forall (f g : nat -> bool) n a, (forall k, (a <= k)%nat -> f (S k) = g k) -> filter f (seq (S a) n) = map S (filter g (seq a n)).
Proof.
  intros f g n. induction n as [|n IH]; intros a H; cbn [seq filter]; [auto|]. rewrite H by lia. destruct (g a); cbn [map]; rewrite IH; auto; intros k K; apply H; lia.
Qed.
Lemma positions_filter : forall p l a, positions p a l =
  map (fun k => (a + k)%nat) (filter (fun k => match nth_error l k with Some i => p i | None => false end) (seq 0 (length l))).
Proof.
  intros p l. induction l as [|i r IH]; intros a; cbn [positions length seq filter]; [auto|]. cbn [nth_error].
  rewrite (filter_seq_shift _ (fun k => match nth_error r k with Some i => p i | None => false end)) by (intros k _; reflexivity).
  destruct (p i); cbn [map]; rewrite IH, map_map.
  - rewrite Nat.add_0_r. f_equal. apply map_ext. intros k. lia.
  - apply map_ext. intros k. lia.
Qed.

(* the parent of a subinterface: the interface on the parent link; on a link with several interfaces of the node, the one
   at the position of the subinterface. Subinterfaces are no parents. *)
Definition parent_at (l : list vintf) (i : vintf) (j : nat) : Prop :=
  exists q, i_parent i = Some (Some q) /\
    (on_link l q = [j] \/ (2 <= length (on_link l q))%nat /\ nth_error (on_link l q) (i_loop i) = Some j) /\
    forall k p, nth_error l k = Some p -> member p -> i_link p <> Some q.

Lemma find_parent_at : forall l cur i j, parent_at l i j -> length cur = length l ->
  (forall k p p', nth_error l k = Some p -> nth_error cur k = Some p' -> i_link p' = i_link p \/ member p /\ i_link p' = None) ->
  exists q, i_parent i = Some (Some q) /\ find_parent i q cur = Parent j.
Proof.
  intros l cur i j [q [E [O M]]] L S. exists q. split; [auto|].
  assert (P : positions (fun j => opt_nat_eqb (i_link j) q) 0 cur = on_link l q).
  { rewrite positions_filter. rewrite map_ext with (g := fun k => k) by (intros; lia). rewrite map_id. unfold on_link. rewrite L.
    apply filter_ext_in. intros k K. apply in_seq in K.
    destruct (nth_error l k) as [p|] eqn:A; [|apply nth_error_None in A; lia].
    destruct (nth_error cur k) as [p'|] eqn:B; [|apply nth_error_None in B; lia].
    unfold opt_nat_eqb. destruct (S k p p' A B) as [X|[X Y]]; [now rewrite X|]. rewrite Y. specialize (M k p A X).
    destruct (i_link p) as [x|]; [|auto]. destruct (Nat.eqb_spec x q) as [->|]; [congruence|auto]. }
  unfold find_parent. rewrite P. destruct O as [->|[O1 O2]]; [auto|].
  destruct (on_link l q) as [|a [|b r]]; cbn [length] in O1; [lia|lia|]. now rewrite O2.
Qed.

Section Sub.
Variable sub_fmt : vintf -> vintf -> string.
Variable t : vtop.
Variable nd : vnode.
Variable routed_link : option nat -> bool.
Notation rename_step := (rename_step sub_fmt t nd).
Notation rename_loop := (rename_loop sub_fmt t nd).

Definition first_id : Z := match vn_first nd with Some n => if n =? 0 then 1 else n | None => 1 end.

(* the VLAN ids of the subinterfaces taken from a trunk *)
Definition remaining (subs : list Z) (ids : option (list Z)) : option (list Z) :=
  match ids with
  | None => None
  | Some ids => match ids, filter (fun x => negb (memZ x subs)) ids with
                | _ :: _, [] => None
                | _, rest => Some rest
                end
  end.

(* an interface with the subinterfaces whose VLAN ids are [subs] (None: a subinterface without VLAN id) *)
Definition parent_after (subs : list (option Z)) (i j : vintf) : Prop :=
  same_but_trunk i j /\
  i_sub j = match subs with [] => i_sub i | _ => Some (match i_sub i with Some n => n + 1 | None => first_id end + Z.of_nat (length subs) - 1) end /\
  p_trunk_id (i_vlan j) = remaining (flat_map (fun o => match o with Some a => [a] | None => [] end) subs) (p_trunk_id (i_vlan i)).

(* the subinterface [j] of the interface [p]; [n]: its number *)
Definition subif_after (p : vintf) (n : Z) (i j : vintf) : Prop :=
  exists q, i_ifname q = i_ifname p /\ i_index q = i_index p /\ i_sub q = Some n /\ i_attr q = i_attr p /\ i_ifname j = sub_fmt q i /\
  i_pidx j = Some (i_index p) /\ i_pname j = Some (i_ifname p) /\ i_link j = None /\ i_parent j = None /\
  i_index j = i_index i /\ i_type j = i_type i /\ i_vname j = i_vname i /\ i_ngb j = i_ngb i /\
  p_access_id (i_vlan j) = p_access_id (i_vlan i) /\ p_name (i_vlan j) = p_name (i_vlan i) /\ p_mode (i_vlan j) = p_mode (i_vlan i) /\
  p_routed (i_vlan j) = (p_routed (i_vlan i) || match i_vname i with Some _ => routed_link (i_link i) | None => false end) /\
  (forall k, k <> "virtual_interface"%string -> dget k (i_attr j) =
     if in_dec string_dec k (vt_phy t) then (if in_dec string_dec k (vt_keep t) then dget k (i_attr i) else None) else dget k (i_attr i)).

(* the subinterfaces of [j] among the first [k] interfaces *)
Fixpoint subs_before (l : list vintf) (par : nat -> option nat) (j k : nat) : list (option Z) :=
  match k with
  | O => []
  | S k' => subs_before l par j k' ++
      match nth_error l k', par k' with
      | Some i, Some j' => if Nat.eqb j' j then [p_access_id (i_vlan i)] else []
      | _, _ => []
      end
  end.

Lemma replace_nth : forall l a b x, nth_error (replace a x l) b = if Nat.eqb a b then (if nth_error l b then Some x else None) else nth_error l b.
Proof. induction l as [|y r IH]; intros [|a] [|b] x; cbn [replace nth_error Nat.eqb]; auto. now destruct (Nat.eqb a b). Qed.
Lemma replace_length : forall l a x, length (replace a x l) = length l.
Proof. induction l as [|y r IH]; intros [|a] x; cbn [replace length]; auto. Qed.

Definition all_parents (l : list vintf) (par : nat -> option nat) : Prop :=
  forall k i, nth_error l k = Some i ->
    match par k with
    | Some j => member i /\ parent_at l i j
    | None => ~ member i
    end.

Definition progress (l : list vintf) (par : nat -> option nat) (k : nat) (cur : list vintf) : Prop :=
  length cur = length l /\
  forall x i, nth_error l x = Some i -> exists i', nth_error cur x = Some i' /\
    match par x with
    | None => parent_after (subs_before l par x k) i i'
    | Some j => if (x <? k)%nat then exists p, nth_error l j = Some p /\
                     subif_after p (match i_sub p with Some n => n + 1 | None => first_id end + Z.of_nat (length (subs_before l par j x))) i i'
                else i' = i
    end.

Lemma on_link_nth : forall l q j, In j (on_link l q) -> exists p, nth_error l j = Some p /\ i_link p = Some q.
Proof.
  intros l q j I. unfold on_link in I. apply filter_In in I. destruct I as [_ I]. destruct (nth_error l j) as [p|]; [|discriminate].
  exists p. split; [auto|]. destruct (i_link p) as [x|]; [|discriminate]. apply Nat.eqb_eq in I. now subst.
Qed.
Lemma parent_not_member : forall l i j, parent_at l i j -> exists p, nth_error l j = Some p /\ ~ member p.
Proof.
  intros l i j [q [E [O M]]]. assert (I : In j (on_link l q)).
  { destruct O as [->|[_ O]]; [now left|eapply nth_error_In; eauto]. }
  apply on_link_nth in I. destruct I as [p [A B]]. exists p. split; [auto|]. intros X. now apply (M j p).
Qed.

Lemma same_trunk_refl : forall i, same_but_trunk i i.
Proof. intros i. unfold same_but_trunk. repeat split. Qed.
Lemma same_trunk_trans : forall i j k, same_but_trunk i j -> same_but_trunk j k -> same_but_trunk i k.
Proof. unfold same_but_trunk. intros i j k A B. decompose [and] A. decompose [and] B. repeat split; congruence. Qed.

Lemma filter_filter_mem : forall subs a ids, filter (fun x => negb (x =? a)) (filter (fun x => negb (memZ x subs)) ids) = filter (fun x => negb (memZ x (subs ++ [a]))) ids.
Proof.
  intros subs a ids. induction ids as [|x r IH]; cbn [filter]; [auto|].
  assert (E : memZ x (subs ++ [a]) = memZ x subs || (x =? a)) by (unfold memZ; rewrite existsb_app; cbn [existsb]; now rewrite orb_false_r).
  rewrite E. destruct (memZ x subs); cbn [negb orb]; [auto|]. cbn [filter]. destruct (x =? a); cbn [negb]; now rewrite IH.
Qed.

(* one more subinterface of the interface *)
Lemma parent_step : forall subs i p o, parent_after subs i p ->
  parent_after (subs ++ [o]) i
    (match zmem_opt o (p_trunk_id (i_vlan (set_sub p (next_sub nd p)))) with Some a => remove_vlan (set_sub p (next_sub nd p)) a | None => set_sub p (next_sub nd p) end).
Proof.
  intros subs i p o [A [B C]]. cbn [set_sub i_vlan].
  set (p1 := set_sub p (next_sub nd p)). set (f := fun o : option Z => match o with Some a => [a] | None => [] end).
  assert (S1 : same_but_trunk i p1).
  { eapply same_trunk_trans; [exact A|]. unfold same_but_trunk, p1. cbn [set_sub]. repeat split. }
  assert (N1 : Some (next_sub nd p) = match subs ++ [o] with [] => i_sub i | _ => Some (match i_sub i with Some n => n + 1 | None => first_id end + Z.of_nat (length (subs ++ [o])) - 1) end).
  { unfold next_sub. fold first_id. rewrite B, app_length. cbn [length]. destruct subs as [|s0 ss]; cbn [app length].
    - destruct (i_sub i); f_equal; lia.
    - destruct (i_sub i); f_equal; lia. }
  assert (T1 : p_trunk_id (i_vlan p1) = remaining (flat_map f subs) (p_trunk_id (i_vlan i))) by exact C.
  assert (E : flat_map f (subs ++ [o]) = flat_map f subs ++ f o) by (rewrite flat_map_app; cbn [flat_map]; now rewrite app_nil_r).
  unfold zmem_opt. destruct o as [a|].
  2:{ split; [exact S1|]. split; [exact N1|]. fold f. rewrite E. cbn [f]. rewrite app_nil_r. exact T1. }
  cbn [f] in E.
  assert (K : forall x, same_but_trunk i (remove_vlan p1 x) /\ i_sub (remove_vlan p1 x) = Some (next_sub nd p)).
  { intros x. split; [eapply same_trunk_trans; [exact S1|]|]; unfold remove_vlan; destruct (filter _ _); try reflexivity; unfold same_but_trunk; cbn [set_trunk_id]; repeat split. }
  change (p_trunk_id (i_vlan p)) with (p_trunk_id (i_vlan p1)).
  destruct (p_trunk_id (i_vlan p1)) as [cur|] eqn:Q.
  2:{ split; [exact S1|]. split; [exact N1|]. fold f. rewrite E, Q. unfold remaining in *.
      destruct (p_trunk_id (i_vlan i)) as [ids|]; [|auto]. destruct ids as [|x xs]; [discriminate|].
      rewrite <- filter_filter_mem. destruct (filter (fun x => negb (memZ x (flat_map f subs))) (x :: xs)); [reflexivity|discriminate]. }
  destruct (memZ a cur) eqn:M.
  - destruct (K a) as [K1 K2]. split; [exact K1|]. split; [now rewrite K2|]. fold f. rewrite E. unfold remaining in *.
    destruct (p_trunk_id (i_vlan i)) as [ids|]; [|discriminate T1].
    destruct ids as [|x xs]; [exfalso; cbn [filter] in T1; injection T1 as T1; rewrite T1 in M; cbv in M; discriminate M|].
    rewrite <- filter_filter_mem.
    destruct (filter (fun x => negb (memZ x (flat_map f subs))) (x :: xs)) as [|y ys]; [discriminate T1|]. injection T1 as T1.
    rewrite <- T1. unfold remove_vlan. rewrite Q.
    destruct (filter (fun x0 => negb (x0 =? a)) cur); reflexivity.
  - split; [exact S1|]. split; [exact N1|]. fold f. rewrite E, Q. unfold remaining in *.
    destruct (p_trunk_id (i_vlan i)) as [ids|]; [|discriminate T1].
    assert (Same : forall l, memZ a l = false -> filter (fun x => negb (x =? a)) l = l).
    { clear. induction l as [|x r IH]; cbn [filter]; [auto|]. unfold memZ. cbn [existsb]. intros H. apply orb_false_iff in H. destruct H as [H1 H2].
      rewrite Z.eqb_sym, H1. cbn [negb]. f_equal. now apply IH. }
    destruct ids as [|x xs]; [cbn [filter] in *; auto|]. rewrite <- filter_filter_mem.
    destruct (filter (fun x => negb (memZ x (flat_map f subs))) (x :: xs)) as [|y ys]; [discriminate T1|]. injection T1 as T1.
    rewrite Same by congruence. now rewrite T1.
Qed.

Lemma progress_step : forall l par vlans k st, vn_router nd = true -> vn_subif nd = true -> all_parents l par ->
  progress l par k (r_ifs st) -> (k < length l)%nat ->
  exists st', rename_step vlans routed_link st k = Some st' /\ progress l par (S k) (r_ifs st') /\ r_errs st' = r_errs st /\ r_loop st' = r_loop st.
Proof.
  intros l par vlans k st Rt Sf AP [L P] Kl. unfold Svi_Model.rename_step.
  destruct (nth_error l k) as [i|] eqn:Ek; [|apply nth_error_None in Ek; lia].
  destruct (P k i Ek) as [i' [Ei Pi]]. rewrite Ei. pose proof (AP k i Ek) as APk.
  destruct (par k) as [j|] eqn:Pk.
  2:{ assert (Ty : i_type i' = i_type i) by (destruct Pi as [[_ [X _]] _]; exact X).
      assert (E : String.eqb (i_type i') "vlan_member" = false) by (apply String.eqb_neq; rewrite Ty; exact APk). rewrite E. cbn [negb].
      exists st. split; [auto|]. split; [|auto]. split; [auto|]. intros x ix Ex. destruct (P x ix Ex) as [ix' [Ex' Px]]. exists ix'. split; [auto|].
      destruct (par x) as [jx|] eqn:Qx.
      - destruct (Nat.ltb_spec x k) as [H|H]; destruct (Nat.ltb_spec x (S k)) as [H'|H']; try lia; [auto| |auto].
        assert (x = k) by lia. subst x. congruence.
      - cbn [subs_before]. rewrite Ek, Pk, app_nil_r. exact Px. }
  destruct APk as [Mi Pa]. assert (Hk : (k <? k)%nat = false) by apply Nat.ltb_irrefl. rewrite Hk in Pi. subst i'.
  assert (E : String.eqb (i_type i) "vlan_member" = true) by (now apply String.eqb_eq). rewrite E, Rt, Sf. cbn [negb].
  destruct (find_parent_at l (r_ifs st) i j Pa L) as [q [Q1 Q2]].
  { intros x p p' A B. destruct (P x p A) as [p2 [B2 Px]]. assert (p2 = p') by congruence. subst p2. pose proof (AP x p A) as APx.
    destruct (par x) as [jx|] eqn:Qx.
    - destruct (x <? k)%nat; [|left; congruence]. destruct Px as [pp [_ [qq Sx]]]. decompose [and] Sx. right. split; [tauto|auto].
    - destruct Px as [Sx _]. unfold same_but_trunk in Sx. decompose [and] Sx. left. auto. }
  rewrite Q1, Q2. destruct (parent_not_member _ _ _ Pa) as [p [Ep Np]].
  destruct (P j p Ep) as [p0 [Ep0 Pj]]. rewrite Ep0. cbv zeta.
  assert (Qj : par j = None).
  { destruct (par j) as [jj|] eqn:Qj; [|auto]. pose proof (AP j p Ep) as X. rewrite Qj in X. destruct X as [X _]. contradiction. }
  rewrite Qj in Pj. assert (Djk : j <> k) by (intros ->; congruence).
  set (p1 := set_sub p0 (next_sub nd p0)).
  set (p' := match zmem_opt (p_access_id (i_vlan i)) (p_trunk_id (i_vlan p1)) with Some a => remove_vlan p1 a | None => p1 end).
  set (routed := match i_vname i with Some _ => routed_link (i_link i) | None => false end).
  pose proof (parent_step _ _ _ (p_access_id (i_vlan i)) Pj) as Pj'. fold p1 in Pj'. fold p' in Pj'.
  eexists. split; [reflexivity|]. cbn [r_ifs r_errs r_loop]. split; [|auto]. split; [now rewrite !replace_length|].
  intros x ix Ex. destruct (P x ix Ex) as [ix' [Ex' Px]]. rewrite replace_nth, replace_nth.
  destruct (Nat.eqb_spec k x) as [<-|Dx].
  - assert (Ejk : Nat.eqb j k = false) by (now apply Nat.eqb_neq). rewrite Ejk, Ei. exists (subinterface sub_fmt t p1 i routed). split; [auto|].
    rewrite Pk. assert (H : (k <? S k)%nat = true) by (apply Nat.ltb_lt; lia). rewrite H. exists p. split; [auto|].
    assert (ix = i) by congruence. subst ix. destruct Pj as [Sj [Bj Cj]]. unfold same_but_trunk in Sj. decompose [and] Sj.
    exists p1. unfold p1. cbn [set_sub i_ifname i_index i_sub i_attr]. do 2 (split; [assumption|]).
    split.
    { f_equal. unfold next_sub. fold first_id. rewrite Bj. destruct (subs_before l par j k) as [|s0 ss]; cbn [length].
      - destruct (i_sub p); lia.
      - destruct (i_sub p); lia. }
    split; [assumption|]. split; [reflexivity|]. cbn [subinterface i_pidx i_pname set_sub i_index i_ifname].
    split; [congruence|]. split; [congruence|]. do 10 (split; [reflexivity|]).
    intros kk Kk. cbn [subinterface i_attr]. rewrite (dget_filter_key _ (fun z => negb (memS z (vt_phy t)) || memS z (vt_keep t))).
    rewrite dget_dset_other by auto.
    destruct (in_dec string_dec kk (vt_phy t)) as [I1|I1]; [apply memS_true in I1|apply memS_false in I1]; rewrite I1; cbn [negb orb]; [|auto].
    destruct (in_dec string_dec kk (vt_keep t)) as [I2|I2]; [apply memS_true in I2|apply memS_false in I2]; now rewrite I2.
  - destruct (Nat.eqb_spec j x) as [<-|Dj].
    + rewrite Ep0. exists p'. split; [auto|]. rewrite Qj. cbn [subs_before]. rewrite Ek, Pk, Nat.eqb_refl.
      assert (ix = p) by congruence. subst ix. exact Pj'.
    + exists ix'. split; [auto|]. destruct (par x) as [jx|] eqn:Qx.
      * destruct (Nat.ltb_spec x k) as [H|H]; destruct (Nat.ltb_spec x (S k)) as [H'|H']; try lia; auto.
      * cbn [subs_before]. rewrite Ek, Pk. assert (Z : Nat.eqb j x = false) by (now apply Nat.eqb_neq). rewrite Z, app_nil_r. exact Px.
Qed.

Lemma progress_start : forall l par, progress l par 0 l.
Proof.
  intros l par. split; [auto|]. intros x i E. exists i. split; [auto|]. destruct (par x); [reflexivity|].
  cbn [subs_before]. split; [apply same_trunk_refl|]. split; [auto|]. cbn [flat_map]. unfold remaining.
  destruct (p_trunk_id (i_vlan i)) as [ids|]; [|auto].
  assert (F : filter (fun x => negb (memZ x [])) ids = ids) by (clear; induction ids as [|z r IH]; [reflexivity|]; change (z :: filter (fun x => negb (memZ x [])) r = z :: r); now rewrite IH).
  destruct ids as [|z r]; [reflexivity|]. now rewrite F.
Qed.

(* C115: every subinterface gets the next number of its parent interface, and its VLAN is taken from the trunk of the
   parent interface *)
Theorem subinterfaces_exact : forall l par vlans nl, vn_router nd = true -> vn_subif nd = true -> all_parents l par ->
  exists st, rename_loop vlans routed_link (mk_rs l false nl [] []) (seq 0 (length l)) = Some st /\ r_errs st = [] /\
    length (r_ifs st) = length l /\
    forall x i, nth_error l x = Some i -> exists i', nth_error (r_ifs st) x = Some i' /\
      match par x with
      | None => parent_after (subs_before l par x (length l)) i i'
      | Some j => exists p, nth_error l j = Some p /\
          subif_after p (match i_sub p with Some n => n + 1 | None => first_id end + Z.of_nat (length (subs_before l par j x))) i i'
      end.
Proof.
  intros l par vlans nl Rt Sf AP.
  assert (G : forall d k st, (k + d)%nat = length l -> progress l par k (r_ifs st) ->
    exists st', rename_loop vlans routed_link st (seq k d) = Some st' /\ progress l par (length l) (r_ifs st') /\ r_errs st' = r_errs st).
  { induction d as [|d IH]; intros k st E P; cbn [seq Svi_Model.rename_loop].
    - rewrite Nat.add_0_r in E. subst k. exists st. auto.
    - destruct (progress_step l par vlans k st Rt Sf AP P) as [s1 [S1 [S2 [S3 _]]]]; [lia|]. rewrite S1.
      destruct (IH (S k) s1) as [s2 [X1 [X2 X3]]]; [lia|exact S2|]. exists s2. split; [auto|]. split; [auto|congruence]. }
  destruct (G (length l) 0%nat (mk_rs l false nl [] [])) as [st [X1 [[X2 X3] X4]]]; [lia|apply progress_start|].
  exists st. split; [auto|]. split; [auto|]. split; [auto|]. intros x i E. destruct (X3 x i E) as [i' [Y1 Y2]]. exists i'. split; [auto|].
  destruct (par x) as [j|]; [|auto]. assert (H : (x <? length l)%nat = true) by (apply Nat.ltb_lt; apply nth_error_Some; congruence).
  now rewrite H in Y2.
Qed.

(* devices without VLAN subinterfaces: every routed subinterface is reported and left alone *)
Theorem subinterfaces_unsupported : forall l vlans nl, vn_router nd = false ->
  rename_loop vlans routed_link (mk_rs l false nl [] []) (seq 0 (length l)) =
    Some (mk_rs l false nl [] (map (fun i => ERoutedSub (i_vname i)) (filter (fun i => String.eqb (i_type i) "vlan_member") l))).
Proof.
  intros l vlans nl R.
  assert (G : forall d k es, (k + d)%nat = length l -> rename_loop vlans routed_link (mk_rs l false nl [] es) (seq k d) =
    Some (mk_rs l false nl [] (es ++ map (fun i => ERoutedSub (i_vname i)) (filter (fun i => String.eqb (i_type i) "vlan_member") (skipn k l))))).
  { induction d as [|d IH]; intros k es E; cbn [seq Svi_Model.rename_loop].
    - rewrite skipn_all2 by lia. cbn [filter map]. now rewrite app_nil_r.
    - unfold Svi_Model.rename_step. cbn [r_ifs r_loop r_nl r_ren r_errs].
      destruct (nth_error l k) as [i|] eqn:Ek; [|apply nth_error_None in Ek; lia].
      assert (Sk : skipn k l = i :: skipn (S k) l).
      { clear - Ek. revert k Ek. induction l as [|y r IH]; intros [|k] E; cbn [nth_error] in E; try discriminate.
        - injection E as ->. reflexivity.
        - cbn [skipn]. now apply IH. }
      rewrite Sk. cbn [filter]. destruct (String.eqb (i_type i) "vlan_member"); cbn [negb].
      + rewrite R. cbn [negb]. rewrite IH by lia. cbn [map]. rewrite <- app_assoc. reflexivity.
      + rewrite IH by lia. reflexivity. }
  rewrite (G (length l) 0%nat []) by lia. reflexivity.
Qed.
End Sub.

(* ---- final checks ---- *)

Lemma mixed_trunks_spec : forall all l seen,
  match mixed_trunks all l seen with
  | Some es => NoDup es /\ forall e, In e es <-> exists p, e = EMixedTrunk p /\ ~ In p seen /\
      exists i x, In i l /\ member i /\ i_pidx i = Some p /\ find (fun y => i_index y =? p) all = Some x /\ p_trunk_id (i_vlan x) <> None
  | None => exists i p, In i l /\ member i /\ i_pidx i = Some p /\ forall x, In x all -> i_index x <> p
  end.
Proof.
  intros all l. induction l as [|i r IH]; intros seen; cbn [mixed_trunks].
  { split; [constructor|]. intros e. split; [intros []|intros [p [_ [_ [i [x [[] _]]]]]]]. }
  assert (Skip : (forall p x, member i -> i_pidx i = Some p -> find (fun y => i_index y =? p) all = Some x -> p_trunk_id (i_vlan x) = None) ->
    match mixed_trunks all r seen with
    | Some es => NoDup es /\ forall e, In e es <-> exists p, e = EMixedTrunk p /\ ~ In p seen /\
        exists i0 x, In i0 (i :: r) /\ member i0 /\ i_pidx i0 = Some p /\ find (fun y => i_index y =? p) all = Some x /\ p_trunk_id (i_vlan x) <> None
    | None => exists i0 p, In i0 (i :: r) /\ member i0 /\ i_pidx i0 = Some p /\ forall x, In x all -> i_index x <> p
    end).
  { intros N. specialize (IH seen). destruct (mixed_trunks all r seen) as [es|].
    - destruct IH as [ND IH]. split; [auto|]. intros e. rewrite IH. split.
      + intros [p [A [B [j [x [C D]]]]]]. exists p. split; [auto|]. split; [auto|]. exists j, x. split; [now right|auto].
      + intros [p [A [B [j [x [C [D [E [F G]]]]]]]]]. exists p. split; [auto|]. split; [auto|]. exists j, x.
        destruct C as [<-|C]; [|auto]. elim G. eauto.
    - destruct IH as [j [p [A B]]]. exists j, p. split; [now right|auto]. }
  destruct (i_pidx i) as [pi|] eqn:P; [|apply Skip; intros; discriminate].
  destruct (String.eqb (i_type i) "vlan_member") eqn:M; cbn [negb].
  2:{ apply Skip. intros p x X. apply String.eqb_neq in M. contradiction. }
  apply String.eqb_eq in M. destruct (find (fun x => i_index x =? pi) all) as [q|] eqn:F.
  2:{ exists i, pi. split; [now left|]. split; [exact M|]. split; [auto|]. intros x X. pose proof (find_none _ _ F x X) as Y. cbn beta in Y.
      now apply Z.eqb_neq in Y. }
  destruct (p_trunk_id (i_vlan q)) as [ids|] eqn:T.
  2:{ apply Skip. intros p x _ E G. injection E as <-. congruence. }
  specialize (IH (pi :: seen)). destruct (mixed_trunks all r (pi :: seen)) as [es|].
  2:{ destruct IH as [j [p [A B]]]. exists j, p. split; [now right|auto]. }
  destruct IH as [ND IH].
  assert (R : forall e, (exists p, e = EMixedTrunk p /\ ~ In p seen /\ exists i0 x, In i0 (i :: r) /\ member i0 /\ i_pidx i0 = Some p /\ find (fun y => i_index y =? p) all = Some x /\ p_trunk_id (i_vlan x) <> None)
    <-> In e es \/ e = EMixedTrunk pi /\ ~ In pi seen).
  { intros e. rewrite IH. split.
    - intros [p [A [B [j [x [C D]]]]]]. destruct (Z.eq_dec p pi) as [->|Dp]; [right; auto|]. left. exists p. split; [auto|]. split.
      + intros [X|X]; [now elim Dp|contradiction].
      + exists j, x. destruct C as [<-|C]; [|auto]. destruct D as [_ [D _]]. congruence.
    - intros [[p [A [B [j [x [C D]]]]]]|[A B]].
      + exists p. split; [auto|]. split; [intros X; apply B; now right|]. exists j, x. split; [now right|auto].
      + exists pi. split; [auto|]. split; [auto|]. exists i, q. split; [now left|]. split; [exact M|]. split; [auto|]. split; [auto|congruence]. }
  destruct (memZ pi seen) eqn:S.
  - assert (I : In pi seen) by (unfold memZ in S; apply existsb_exists in S; destruct S as [y [Y Z]]; apply Z.eqb_eq in Z; congruence).
    split; [auto|]. intros e. rewrite R. tauto.
  - assert (I : ~ In pi seen) by (intros I; assert (X : memZ pi seen = true) by (unfold memZ; apply existsb_exists; exists pi; split; [auto|apply Z.eqb_refl]); congruence).
    split.
    + constructor; [|auto]. intros X. apply IH in X. destruct X as [p [A [B _]]]. injection A as <-. apply B. now left.
    + intros e. rewrite R. cbn [In]. split; [intros [<-|]; [right; auto|auto]|intros [|[-> _]]; auto].
Qed.

(* C116: trunks with both bridged VLANs and routed subinterfaces are reported once per parent interface, on devices which
   do not support them *)
Theorem mixed_trunks_exact : forall nd l,
  match check_mixed_trunks nd l with
  | Some es => NoDup es /\ forall e, In e es <-> vn_mixed nd = false /\ exists p, e = EMixedTrunk p /\
      exists i x, In i l /\ member i /\ i_pidx i = Some p /\ find (fun y => i_index y =? p) l = Some x /\ p_trunk_id (i_vlan x) <> None
  | None => vn_mixed nd = false /\ exists i p, In i l /\ member i /\ i_pidx i = Some p /\ forall x, In x l -> i_index x <> p
  end.
Proof.
  intros nd l. unfold check_mixed_trunks. destruct (vn_mixed nd).
  { split; [constructor|]. intros e. split; [intros []|intros [X _]; discriminate]. }
  pose proof (mixed_trunks_spec l l []) as H. destruct (mixed_trunks l l []) as [es|]; [|auto].
  destruct H as [ND H]. split; [auto|]. intros e. rewrite H. split.
  - intros [p [A [_ B]]]. eauto.
  - intros [_ [p [A B]]]. exists p. split; [auto|]. split; [intros []|auto].
Qed.

(* the native VLAN of a trunk is not tagged: a routed native VLAN leaves the trunk of its interface *)
Theorem routed_native_exact : forall nd vlans i,
  let r := native_cleanup nd vlans i in
  same_but_trunk i (fst r) /\ i_sub (fst r) = i_sub i /\
  (forall a ids, p_trunk_id (i_vlan (fst r)) = Some ids ->
     (In a ids <-> exists old, p_trunk_id (i_vlan i) = Some old /\ In a old /\
        ~ exists v x, i_native i = Some v /\ i_fwd i = Some "route"%string /\ dget v vlans = Some x /\ nv_id x = a /\ a <> 0)) /\
  (forall e, In e (snd r) <-> exists v, e = ENativeRouted v /\ i_native i = Some v /\ i_fwd i = Some "route"%string /\ vn_native_routed nd = false).
Proof.
  intros nd vlans i. unfold native_cleanup. cbv zeta.
  assert (Id : ~ (exists v, i_native i = Some v /\ i_fwd i = Some "route"%string) ->
    same_but_trunk i i /\ i_sub i = i_sub i /\
    (forall a ids, p_trunk_id (i_vlan i) = Some ids -> (In a ids <-> exists old, p_trunk_id (i_vlan i) = Some old /\ In a old /\
        ~ exists v x, i_native i = Some v /\ i_fwd i = Some "route"%string /\ dget v vlans = Some x /\ nv_id x = a /\ a <> 0)) /\
    (forall e, In e [] <-> exists v, e = ENativeRouted v /\ i_native i = Some v /\ i_fwd i = Some "route"%string /\ vn_native_routed nd = false)).
  { intros N. split; [apply same_trunk_refl|]. split; [auto|]. split.
    - intros a ids E. split; [intros I; exists ids; split; [auto|]; split; [auto|]; intros [v [x [A [B _]]]]; apply N; eauto|].
      intros [old [A [B _]]]. congruence.
    - intros e. split; [intros []|]. intros [v [_ [A [B _]]]]. apply N. eauto. }
  destruct (i_native i) as [v|] eqn:V; [|apply Id; intros [v [X _]]; discriminate].
  destruct (String.eqb (text (i_fwd i)) "route") eqn:F; cbn [negb].
  2:{ apply Id. intros [w [_ X]]. rewrite X in F. discriminate F. }
  assert (F' : i_fwd i = Some "route"%string).
  { apply String.eqb_eq in F. destruct (i_fwd i) as [w|]; cbn [text] in F; [congruence|discriminate]. }
  clear Id. cbn [fst snd].
  assert (Er : forall e, In e (if vn_native_routed nd then [] else [ENativeRouted v]) <->
    exists w, e = ENativeRouted w /\ Some v = Some w /\ i_fwd i = Some "route"%string /\ vn_native_routed nd = false).
  { intros e. destruct (vn_native_routed nd).
    - split; [intros []|intros [w [_ [_ [_ X]]]]; discriminate].
    - split; [intros [<-|[]]; eauto|intros [w [-> [X _]]]; left; congruence]. }
  assert (Keep : (forall x, dget v vlans = Some x -> nv_id x = 0) -> forall a ids, p_trunk_id (i_vlan i) = Some ids -> (In a ids <-> exists old, p_trunk_id (i_vlan i) = Some old /\ In a old /\
        ~ exists w x, Some v = Some w /\ i_fwd i = Some "route"%string /\ dget w vlans = Some x /\ nv_id x = a /\ a <> 0)).
  { intros N a ids E. split.
    - intros I. exists ids. split; [auto|]. split; [auto|]. intros [w [x [A [_ [B [C D]]]]]]. injection A as <-. apply N in B. congruence.
    - intros [old [A [B _]]]. congruence. }
  destruct (dget v vlans) as [x|] eqn:G.
  2:{ split; [apply same_trunk_refl|]. split; [auto|]. split; [apply Keep; intros y Y; discriminate|exact Er]. }
  destruct (Z.eqb_spec (nv_id x) 0) as [Z0|Z0].
  { split; [apply same_trunk_refl|]. split; [auto|]. split; [apply Keep; intros y Y; congruence|exact Er]. }
  split; [unfold remove_vlan; destruct (filter _ _); unfold same_but_trunk; cbn [set_trunk_id]; repeat split|].
  split; [unfold remove_vlan; destruct (filter _ _); reflexivity|]. split; [|exact Er].
  intros a ids E. unfold remove_vlan in E.
  destruct (filter (fun y => negb (y =? nv_id x)) (match p_trunk_id (i_vlan i) with Some l => l | None => [] end)) as [|y ys] eqn:Q; [discriminate E|].
  assert (ids = y :: ys) by (cbn [set_trunk_id i_vlan p_trunk_id] in E; congruence). subst ids. rewrite <- Q, filter_In.
  destruct (p_trunk_id (i_vlan i)) as [old|]; [|discriminate Q]. rewrite negb_true_iff, Z.eqb_neq. split.
  - intros [A B]. exists old. split; [auto|]. split; [auto|]. intros [w [z [W [_ [C [D _]]]]]]. injection W as <-. congruence.
  - intros [o [A [B C]]]. injection A as <-. split; [auto|]. intros D. apply C. exists v, x. repeat split; auto. congruence.
Qed.

(* a switch cannot have an address on the physical interface of a trunk *)
Theorem mixed_native_exact : forall nd l e, In e (check_mixed_native nd l) <->
  vn_switch nd = true /\ exists i, In i l /\ e = EMixedNative (i_ifname i) /\
    (forall v, dget "virtual_interface" (i_attr i) = Some v -> truthy v = false) /\
    (In "ipv4"%string (dkeys (i_attr i)) \/ In "ipv6"%string (dkeys (i_attr i))) /\
    exists a ids, p_trunk_id (i_vlan i) = Some (a :: ids).
Proof.
  intros nd l e. unfold check_mixed_native. destruct (vn_switch nd).
  2:{ split; [intros []|intros [X _]; discriminate]. }
  rewrite in_flat_map.
  assert (D : forall k (d : dict val), dmem k d = true <-> In k (dkeys d)) by (intros; apply dmem_true).
  split.
  - intros [i [I H]]. split; [auto|]. exists i. split; [auto|].
    destruct (truthy_at "virtual_interface" (i_attr i)) eqn:T; [contradiction|].
    destruct (negb (dmem "ipv4"%string (i_attr i)) && negb (dmem "ipv6"%string (i_attr i))) eqn:A; [contradiction|].
    destruct (p_trunk_id (i_vlan i)) as [[|a ids]|]; try contradiction. destruct H as [<-|[]]. split; [auto|]. split.
    { intros v V. unfold truthy_at in T. now rewrite V in T. }
    split; [|eauto]. apply andb_false_iff in A. rewrite <- !D. destruct A as [A|A]; apply negb_false_iff in A; auto.
  - intros [_ [i [I [-> [V [A [a [ids T]]]]]]]]. exists i. split; [auto|].
    assert (N : truthy_at "virtual_interface" (i_attr i) = false).
    { unfold truthy_at. destruct (dget "virtual_interface" (i_attr i)); auto. }
    rewrite N. assert (B : negb (dmem "ipv4"%string (i_attr i)) && negb (dmem "ipv6"%string (i_attr i)) = false).
    { apply andb_false_iff. rewrite !negb_false_iff, !D. exact A. }
    rewrite B, T. now left.
Qed.

(* ---- cases ---- *)

Definition ex_sub_fmt (p i : vintf) : string := (i_ifname p ++ "." ++ match i_sub p with Some 1 => "1" | Some 2 => "2" | _ => "?" end)%string.
Definition ex_trunk_port : vintf :=
  mk_vi 4 "lan" "eth4" (Some 4%nat) None 0%nat None (mk_vp None None None ["red"; "green"; "blue"]%string None None None false) None [] None None None None None [].
Definition ex_sub_port (k : nat) (v : string) (id : Z) : vintf :=
  mk_vi (Z.of_nat k) "vlan_member" "" (Some k) (Some (Some 4%nat)) 0%nat (Some "route"%string)
    (mk_vp None None (Some "route"%string) [] (Some id) None (Some v) false) (Some v) [] None None None None None
    [("ipv4"%string, VStr "172.16.2.1/24"); ("ifindex"%string, VInt 1); ("mtu"%string, VInt 1400)].

Example trunk_ids_case :
  option_map (map (fun i => p_trunk_id (i_vlan i))) (map_trunk_vlans (vt_vlans ex_top) [ex_trunk_port; ex_sub_port 5 "green" 1002]) = Some [Some [1000; 1002; 1001]; None] /\
  map_trunk_vlans [] [ex_trunk_port] = None.
Proof. split; vm_compute; reflexivity. Qed.

Definition ex_subs : list vintf := [set_trunk_id ex_trunk_port (Some [1000; 1002; 1001]); ex_sub_port 5 "green" 1002; ex_sub_port 6 "blue" 1001].
Definition ex_par (k : nat) : option nat := match k with O => None | _ => Some 0%nat end.
Example subinterfaces_case : all_parents ex_subs ex_par /\
  option_map (fun st => map (fun i => (i_ifname i, i_pidx i, i_sub i, p_trunk_id (i_vlan i), dkeys (i_attr i))) (r_ifs st))
    (rename_loop ex_sub_fmt ex_top (ex_node "s1"%string) [] (fun _ => false) (mk_rs ex_subs false ex_nl [] []) (seq 0 (length ex_subs))) = Some
    [("eth4", None, Some 2, Some [1000], []);
     ("eth4.1", Some 4, None, None, ["ipv4"; "mtu"; "virtual_interface"]);
     ("eth4.2", Some 4, None, None, ["ipv4"; "mtu"; "virtual_interface"])]%string.
Proof.
  split; [|vm_compute; reflexivity].
  assert (P : forall i, i_parent i = Some (Some 4%nat) -> parent_at ex_subs i 0).
  { intros i E. exists 4%nat. split; [auto|]. split; [left; reflexivity|]. intros k p N M. 
    destruct k as [|[|[|k]]]; cbn in N; [|injection N as <-; discriminate|injection N as <-; discriminate|destruct k; discriminate N].
    injection N as <-. discriminate M. }
  intros k i E. destruct k as [|[|[|k]]]; cbn in E.
  - injection E as <-. cbn [ex_par]. discriminate.
  - injection E as <-. cbn [ex_par]. split; [reflexivity|]. now apply P.
  - injection E as <-. cbn [ex_par]. split; [reflexivity|]. now apply P.
  - destruct k; discriminate E.
Qed.

Example subinterfaces_unsupported_case :
  let nd := mk_vnode "s1" None [] None true false true false false None false false in
  option_map r_errs (rename_loop ex_sub_fmt ex_top nd [] (fun _ => false) (mk_rs ex_subs false ex_nl [] []) (seq 0 (length ex_subs))) =
    Some [ERoutedSub (Some "green"%string); ERoutedSub (Some "blue"%string)].
Proof. vm_compute. reflexivity. Qed.

Definition ex_renamed (k : nat) : vintf :=
  mk_vi (Z.of_nat k) "vlan_member" "eth4.1" None None 0%nat None (mk_vp None None None [] None None None false) None [] None None (Some 4) (Some "eth4"%string) None [].
Example mixed_trunks_case :
  check_mixed_trunks (ex_node "s1"%string) [set_trunk_id ex_trunk_port (Some [1000]); ex_renamed 5; ex_renamed 6] = Some [EMixedTrunk 4] /\
  check_mixed_trunks (ex_node "s1"%string) [set_trunk_id ex_trunk_port None; ex_renamed 5] = Some [] /\
  check_mixed_trunks (ex_node "s1"%string) [ex_renamed 5] = None.
Proof. repeat split; vm_compute; reflexivity. Qed.

Definition ex_native : vintf :=
  mk_vi 4 "lan" "eth4" (Some 4%nat) None 0%nat (Some "route"%string) (mk_vp None None None ["red"; "green"]%string None (Some [1000; 1002]) None false)
    None [] None None None None (Some "green"%string) [("ipv4"%string, VStr "172.16.2.1/24")].
Example routed_native_case :
  let r := native_cleanup (ex_node "s1"%string) (vt_vlans ex_top) ex_native in
  p_trunk_id (i_vlan (fst r)) = Some [1000] /\ snd r = [ENativeRouted "green"] /\ check_mixed_native (ex_node "s1"%string) [fst r] = [EMixedNative "eth4"].
Proof. vm_compute. repeat split; reflexivity. Qed.

Print Assumptions trunk_ids_exact.
Print Assumptions subinterfaces_exact.
Print Assumptions subinterfaces_unsupported.
Print Assumptions mixed_trunks_exact.
Print Assumptions routed_native_exact.
Print Assumptions mixed_native_exact.
