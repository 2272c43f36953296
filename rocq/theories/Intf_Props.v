(* Properties C10-C12 and C56-C57: interface indices, neighbor lists, link indices, bridge
   names, link types. *)
From Coq Require Import String Ascii ZArith Lia Bool List Permutation.
From Verif Require Import Base Intf_Model.
Import ListNotations.
Open Scope Z_scope.

(* ------------------------------------------------------------------ *)
(* Specification                                                        *)

(* Interface classes: regular interfaces share one number space, every virtual type has its
   own. *)
Definition class_of (t : option string) : string :=
  match t with
  | Some s => if in_dec string_dec s ["loopback"; "tunnel"; "lag"; "svi"]%string then s else ""%string
  | None => ""%string
  end.

Definition if_key (i : nif) : string * Z := (class_of (ni_type i), ni_ifindex i).

(* value [x] is used by an interface of class [c] *)
Definition used_in (l : list nif) (c : string) (x : Z) : Prop := In (c, x) (map if_key l).

(* first value tried for a class *)
Definition first_index (d : dev) (c : string) : Z :=
  if string_dec c "loopback" then
    10000 + match d_lb_offset d with Some o => if Z.eq_dec o 0 then 1 else o | None => 1 end
  else if string_dec c "tunnel" then 20000
  else if string_dec c "lag" then 30000
  else if string_dec c "svi" then 40000
  else match d_offset d with Some o => o | None => 1 end.

Definition automatic (r : request) : Prop := r_ifindex r = None.

(* ------------------------------------------------------------------ *)
(* Lemmas                                                               *)

Lemma loop_some : forall n s used x,
  ifindex_loop n s used = Some x ->
  s <= x < s + Z.of_nat n /\ ~ In x used /\ (forall y, s <= y < x -> In y used).
Proof.
  induction n as [|n IH]; simpl ifindex_loop; intros s used x H; [discriminate|].
  destruct (memZ s used) eqn:E; simpl in H.
  - apply IH in H. destruct H as [H1 [H2 H3]]. split; [lia|]. split; auto.
    intros y Hy. destruct (Z.eq_dec y s) as [->|]; [now apply memZ_true|]. apply H3; lia.
  - inversion H; subst. apply memZ_false in E. split; [lia|]. split; auto. intros; lia.
Qed.

Lemma loop_none : forall n s used,
  ifindex_loop n s used = None <-> (forall y, s <= y < s + Z.of_nat n -> In y used).
Proof.
  induction n as [|n IH]; intros s used.
  - simpl. split; auto. intros _ y Hy. lia.
  - cbn [ifindex_loop]. destruct (memZ s used) eqn:E; cbn [negb].
    + rewrite IH. apply memZ_true in E. split; intros H y Hy.
      * destruct (Z.eq_dec y s) as [->|]; auto. apply H; lia.
      * apply H; lia.
    + split; [discriminate|]. intros H. apply memZ_false in E. exfalso. apply E. apply H. lia.
Qed.

Lemma virtual_class : forall t, memS t virtual_types = true -> class_of (Some t) = t.
Proof.
  intros t H. unfold class_of. destruct (in_dec string_dec t _) as [|n]; auto.
  exfalso. apply n. apply memS_true in H. exact H.
Qed.

Lemma regular_class : forall t, memS t virtual_types = false -> class_of (Some t) = ""%string.
Proof.
  intros t H. unfold class_of. destruct (in_dec string_dec t _) as [i|]; auto.
  exfalso. apply memS_false in H. apply H. exact i.
Qed.

Lemma idx_virtual : forall t l x, memS t virtual_types = true ->
  (In x (idx_list (Some t) l) <-> used_in l t x).
Proof.
  intros t l x V. unfold idx_list, used_in. rewrite !in_map_iff. split.
  - intros [i [Hi H]]. apply filter_In in H. destruct H as [H1 H2]. exists i. split; auto.
    unfold if_key. simpl in H2. destruct (ni_type i) as [y|] eqn:E; [|discriminate].
    apply String.eqb_eq in H2. subst y. rewrite virtual_class by auto. congruence.
  - intros [i [Hi H]]. exists i. unfold if_key in Hi. inversion Hi; subst. split; auto.
    apply filter_In. split; auto. simpl.
    destruct (ni_type i) as [y|] eqn:E.
    + destruct (memS y virtual_types) eqn:Y.
      * rewrite (virtual_class y Y). now rewrite String.eqb_refl.
      * rewrite (regular_class y Y) in V. discriminate.
    + simpl in V. discriminate.
Qed.

Lemma idx_regular : forall l x, In x (idx_list None l) <-> used_in l "" x.
Proof.
  intros l x. unfold idx_list, used_in. rewrite !in_map_iff. split.
  - intros [i [Hi H]]. apply filter_In in H. destruct H as [H1 H2]. exists i. split; auto.
    unfold if_key. simpl in H2. destruct (ni_type i) as [y|] eqn:E; [|now subst].
    simpl in H2. apply negb_true_iff in H2. rewrite regular_class by auto. congruence.
  - intros [i [Hi H]]. exists i. unfold if_key in Hi. inversion Hi; subst. split; auto.
    apply filter_In. split; auto. simpl.
    destruct (ni_type i) as [y|] eqn:E; auto. change (negb (memS y virtual_types) = true).
    destruct (memS y virtual_types) eqn:Y; auto.
    rewrite (virtual_class y Y) in H1. subst y. discriminate.
Qed.

Lemma virtual_cases : forall t, memS t virtual_types = true ->
  t = "loopback"%string \/ t = "tunnel"%string \/ t = "lag"%string \/ t = "svi"%string.
Proof.
  intros t H. apply memS_true in H. unfold virtual_types in H. simpl in H.
  repeat (destruct H as [H|H]; [subst; tauto|]). contradiction.
Qed.

Lemma first_virtual : forall d t, memS t virtual_types = true ->
  virtual_offset d t + devtype_offset t = first_index d t.
Proof.
  intros d t H. apply virtual_cases in H.
  destruct H as [->|[->|[->| ->]]]; try reflexivity.
  change (devtype_offset "loopback") with 10000.
  change (first_index d "loopback") with
    (10000 + match d_lb_offset d with Some o => if Z.eq_dec o 0 then 1 else o | None => 1 end).
  change (virtual_offset d "loopback") with
    (match d_lb_offset d with Some o => if o =? 0 then 1 else o | None => 1 end).
  destruct (d_lb_offset d) as [o|]; [|reflexivity].
  destruct (Z.eqb_spec o 0); destruct (Z.eq_dec o 0); try contradiction; lia.
Qed.

Lemma first_regular : forall d, regular_start d = first_index d "".
Proof. reflexivity. Qed.

(* what an automatic request does *)
Lemma make_auto : forall d l r i err,
  automatic r -> make_interface d l r = (i, err) ->
  let c := class_of (r_type r) in
  ni_type i = r_type r /\
  ((err = false /\ first_index d c <= ni_ifindex i < first_index d c + 1000 /\
    ~ used_in l c (ni_ifindex i) /\
    (forall y, first_index d c <= y < ni_ifindex i -> used_in l c y)) \/
   (err = true /\ forall y, first_index d c <= y < first_index d c + 1000 -> used_in l c y)).
Proof.
  intros d l r i err A H c. unfold automatic in A. unfold make_interface in H. rewrite A in H.
  assert (R : forall iftype start, (forall x, In x (idx_list iftype l) <-> used_in l c x) ->
     start = first_index d c ->
     let '(idx, e) := get_unique_ifindex l iftype start in
     (e = false /\ first_index d c <= idx < first_index d c + 1000 /\ ~ used_in l c idx /\
       (forall y, first_index d c <= y < idx -> used_in l c y)) \/
     (e = true /\ forall y, first_index d c <= y < first_index d c + 1000 -> used_in l c y)).
  { intros iftype start Hu Hs. unfold get_unique_ifindex.
    destruct (ifindex_loop (Z.to_nat 1000) start (idx_list iftype l)) as [x|] eqn:E.
    - apply loop_some in E. rewrite Z2Nat.id in E by lia. subst start. destruct E as [E1 [E2 E3]].
      left. split; auto. split; auto. split.
      + intros C. apply Hu in C. auto.
      + intros y Hy. apply Hu. auto.
    - rewrite loop_none, Z2Nat.id in E by lia. right. split; auto. subst start.
      intros y Hy. apply Hu. auto. }
  destruct (r_type r) as [t|] eqn:T.
  - destruct (memS t virtual_types) eqn:V.
    + assert (Hc : c = t) by (unfold c; rewrite virtual_class; auto).
      specialize (R (Some t) (virtual_offset d t + devtype_offset t)).
      destruct (get_unique_ifindex l (Some t) _) as [idx e].
      inversion H; subst i err. split; [reflexivity|]. apply R.
      * rewrite Hc. intros x. apply idx_virtual; auto.
      * rewrite Hc. apply first_virtual; auto.
    + assert (Hc : c = ""%string) by (unfold c; rewrite regular_class; auto).
      specialize (R None (regular_start d)).
      destruct (get_unique_ifindex l None _) as [idx e].
      inversion H; subst i err. split; [reflexivity|]. apply R.
      * rewrite Hc. apply idx_regular.
      * rewrite Hc. apply first_regular.
  - specialize (R None (regular_start d)).
    destruct (get_unique_ifindex l None _) as [idx e].
    inversion H; subst i err. split; [reflexivity|]. apply R.
    + apply idx_regular.
    + apply first_regular.
Qed.

Lemma NoDup_snoc : forall A (l : list A) x, NoDup l -> ~ In x l -> NoDup (l ++ [x]).
Proof.
  intros. apply NoDup_app_intro; auto.
  - repeat constructor; auto.
  - intros y Hy [<-|[]]; auto.
Qed.

Definition range_ok (d : dev) (i : nif) : Prop :=
  let f := first_index d (class_of (ni_type i)) in f <= ni_ifindex i < f + 1000.

Lemma add_inv : forall d rs l l' n,
  (forall r, In r rs -> automatic r) ->
  NoDup (map if_key l) -> (forall i, In i l -> range_ok d i) ->
  add_interfaces d rs l = (l', n) -> n = O ->
  NoDup (map if_key l') /\ (forall i, In i l' -> range_ok d i).
Proof.
  induction rs as [|r rs IH]; intros l l' n Ha N Rg H Hn.
  - simpl in H. inversion H; subst; auto.
  - cbn [add_interfaces] in H.
    destruct (make_interface d l r) as [i err] eqn:M.
    destruct (add_interfaces d rs (l ++ [i])) as [l1 n1] eqn:E.
    inversion H; subst l1. clear H.
    apply make_auto in M; [|apply Ha; left; auto]. destruct M as [M0 M].
    destruct M as [[-> [M1 [M2 M3]]]|[-> _]]; [|simpl in *; lia].
    eapply IH; [| | |exact E|simpl in *; lia].
    + intros r' Hr'; apply Ha; right; auto.
    + rewrite map_app. apply NoDup_snoc; auto. simpl. unfold if_key. rewrite M0. exact M2.
    + intros j Hj. apply in_app_iff in Hj. destruct Hj as [Hj|[<-|[]]]; auto.
      unfold range_ok. rewrite M0. exact M1.
Qed.

(* value of a digit string read after [v] *)
Fixpoint read_dec (s : string) (v : nat) : nat :=
  match s with
  | EmptyString => v
  | String c r => read_dec r (10 * v + (nat_of_ascii c - 48))
  end.

Lemma digit_value : forall m, (m < 10)%nat -> (nat_of_ascii (digit m) - 48 = m)%nat.
Proof.
  intros m H. unfold digit. rewrite nat_ascii_embedding; lia.
Qed.

Lemma dec_loop_read : forall f n acc, (n < f)%nat -> read_dec (dec_loop f n acc) 0 = read_dec acc n.
Proof.
  induction f as [|f IH]; intros n acc H; [lia|]. cbn [dec_loop].
  assert (M : (n mod 10 < 10)%nat) by (apply Nat.mod_upper_bound; lia).
  pose proof (Nat.div_mod n 10) as D.
  destruct (Nat.ltb_spec n 10).
  - cbn [read_dec]. rewrite digit_value by auto. rewrite Nat.mod_small by auto. f_equal.
  - rewrite IH.
    + cbn [read_dec]. rewrite digit_value by auto. f_equal. lia.
    + assert (n / 10 < n)%nat by (apply Nat.div_lt; lia). lia.
Qed.

Lemma dec_read : forall n, read_dec (dec n) 0 = n.
Proof. intros n. unfold dec. rewrite dec_loop_read by lia. reflexivity. Qed.

(* ------------------------------------------------------------------ *)
(* C10 *)

(* In a history of automatic additions without errors no two interfaces of a class share an
   index. *)
Theorem auto_ifindex_unique : forall d rs l,
  (forall r, In r rs -> automatic r) ->
  add_interfaces d rs [] = (l, O) ->
  length l = length rs /\ NoDup (map if_key l).
Proof.
  intros d rs l Ha H. split.
  - assert (G : forall rs l0 l n, add_interfaces d rs l0 = (l, n) -> length l = (length l0 + length rs)%nat).
    { clear. induction rs as [|r rs IH]; intros l0 l n H; simpl in H; [inversion H; simpl; lia|].
      destruct (make_interface d l0 r) as [i err].
      destruct (add_interfaces d rs (l0 ++ [i])) as [l1 n1] eqn:E. inversion H; subst.
      apply IH in E. rewrite app_length in E. simpl in *. lia. }
    apply G in H. auto.
  - eapply (add_inv d rs [] l O); eauto; simpl; [constructor|tauto].
Qed.

(* A single automatic addition, after any history (including user-supplied indices): the new
   index is the smallest free one of its class in a window of 1000 values, and the error is
   logged exactly when the window is full. *)
Theorem auto_ifindex_smallest_free : forall d l r i err,
  automatic r -> make_interface d l r = (i, err) ->
  let c := class_of (r_type r) in
  (err = false ->
     first_index d c <= ni_ifindex i < first_index d c + 1000 /\ ~ used_in l c (ni_ifindex i) /\
     forall y, first_index d c <= y < ni_ifindex i -> used_in l c y) /\
  (err = true <-> forall y, first_index d c <= y < first_index d c + 1000 -> used_in l c y).
Proof.
  intros d l r i err A H c. destruct (make_auto d l r i err A H) as [_ [[-> [H1 [H2 H3]]]|[-> H1]]].
  - split; auto. split; [discriminate|]. intros F. exfalso. apply H2. apply F. exact H1.
  - split; [discriminate|]. split; auto.
Qed.

(* With sane device offsets indices of different classes cannot meet either. *)
Theorem auto_ifindex_globally_unique : forall d rs l,
  (forall r, In r rs -> automatic r) ->
  (forall o, d_offset d = Some o -> 0 <= o <= 9000) ->
  (forall o, d_lb_offset d = Some o -> 0 <= o <= 9000) ->
  add_interfaces d rs [] = (l, O) ->
  NoDup (map ni_ifindex l).
Proof.
  intros d rs l Ha Ho Hl H.
  destruct (add_inv d rs [] l O Ha) as [N Rg]; auto; simpl; [constructor|tauto|].
  assert (Inj : forall i j, In i l -> In j l -> ni_ifindex i = ni_ifindex j -> if_key i = if_key j).
  { intros i j Hi Hj E. unfold if_key. rewrite E. f_equal.
    apply Rg in Hi. apply Rg in Hj. unfold range_ok in *.
    assert (Cl : forall t, In (class_of t) [""; "loopback"; "tunnel"; "lag"; "svi"]%string).
    { intros [t|]; [|simpl; auto]. unfold class_of. destruct (in_dec _ _ _) as [Hin|]; [right; exact Hin|left; auto]. }
    assert (Bo : 0 <= first_index d "" <= 9000).
    { unfold first_index. simpl. destruct (d_offset d) eqn:Eo; [apply Ho; auto|lia]. }
    assert (Bl : 10000 <= first_index d "loopback" <= 19000).
    { change (first_index d "loopback") with
        (10000 + match d_lb_offset d with Some o => if Z.eq_dec o 0 then 1 else o | None => 1 end).
      destruct (d_lb_offset d) eqn:Eo; [|lia].
      specialize (Hl z eq_refl). destruct (Z.eq_dec z 0); lia. }
    assert (Bt : first_index d "tunnel" = 20000) by reflexivity.
    assert (Bg : first_index d "lag" = 30000) by reflexivity.
    assert (Bs : first_index d "svi" = 40000) by reflexivity.
    pose proof (Cl (ni_type i)) as Ci. pose proof (Cl (ni_type j)) as Cj.
    simpl In in Ci, Cj.
    repeat (destruct Ci as [Ci|Ci]; [rewrite <- Ci in *; clear Ci|]); try contradiction;
    repeat (destruct Cj as [Cj|Cj]; [rewrite <- Cj in *; clear Cj|]); try contradiction;
    try reflexivity; exfalso; lia. }
  clear Rg Ha H.
  induction l as [|i r IH]; simpl; constructor; inversion N; subst.
  - intros C. apply in_map_iff in C. destruct C as [j [Hj1 Hj2]].
    apply H1. rewrite (Inj i j); [now apply in_map|left; auto|right; auto|auto].
  - apply IH; auto. intros a b Ha Hb. apply Inj; right; auto.
Qed.

Definition req0 (t : option string) : request := mk_req t None None None None.
Definition dev0 : dev := mk_dev (Some 1) None (fun i => ("e" ++ dec (Z.to_nat i))%string)
                                (fun t i => (t ++ dec (Z.to_nat i))%string).

Example auto_ifindex_case :
  let rs := [req0 None; req0 (Some "loopback"%string); req0 (Some "lan"%string); req0 (Some "loopback"%string);
             req0 (Some "svi"%string)] in
  (forall r, In r rs -> automatic r) /\ snd (add_interfaces dev0 rs []) = O /\
  map ni_ifindex (fst (add_interfaces dev0 rs [])) = [1; 10001; 2; 10002; 40000].
Proof.
  split; [|split; vm_compute; reflexivity].
  intros r H. repeat (destruct H as [<-|H]; [reflexivity|]). contradiction.
Qed.

(* A user-supplied index is never compared with the existing ones. *)
Theorem explicit_ifindex_duplicate_refuted :
  exists d rs l, add_interfaces d rs [] = (l, O) /\ ~ NoDup (map if_key l) /\
    unique_ifnames [] l = [].
Proof.
  exists dev0, [req0 None; mk_req None (Some 1) (Some "x1"%string) None None].
  eexists. split; [vm_compute; reflexivity|]. split; [|vm_compute; reflexivity].
  vm_compute. intros H. inversion H. apply H2. left; reflexivity.
Qed.

(* ------------------------------------------------------------------ *)
(* Interface names                                                      *)

(* The uniqueness check at the end of the transformation reports exactly the repeated names. *)
Theorem ifname_check_exact : forall l,
  (unique_ifnames [] l = [] <-> NoDup (map ni_ifname l)) /\
  (forall l1 i l2, l = l1 ++ i :: l2 -> In (ni_ifname i) (map ni_ifname l1) ->
     In (ni_ifindex i) (unique_ifnames [] l)).
Proof.
  assert (G : forall l seen, unique_ifnames seen l = [] <->
            NoDup (map ni_ifname l) /\ forall x, In x (map ni_ifname l) -> ~ In x seen).
  { induction l as [|i r IH]; intros seen; simpl.
    - split; auto. intros _. split; [constructor|tauto].
    - destruct (memS (ni_ifname i) seen) eqn:E.
      + apply memS_true in E. split; [discriminate|]. intros [_ H]. exfalso. apply (H (ni_ifname i)); auto.
      + apply memS_false in E. rewrite IH. split.
        * intros [H1 H2]. split; [constructor; auto; intros C; apply (H2 _ C); left; auto|].
          intros x [<-|Hx]; auto. intros C. apply (H2 x Hx). right; auto.
        * intros [H1 H2]. inversion H1; subst. split; auto.
          intros x Hx [<-|C]; auto. apply (H2 x); auto. }
  intros l. split.
  - rewrite G. split; [tauto|]. intros H; split; auto.
  - intros l1 i l2 -> Hin.
    assert (G2 : forall l1 seen, In (ni_ifname i) (map ni_ifname l1) \/ In (ni_ifname i) seen ->
              In (ni_ifindex i) (unique_ifnames seen (l1 ++ i :: l2))).
    { induction l0 as [|j r IH]; intros seen H; simpl.
      - destruct H as [[]|H]. apply memS_true in H. rewrite H. left; auto.
      - destruct (memS (ni_ifname j) seen) eqn:E.
        + right. apply IH. simpl in H. destruct H as [[H|H]|H]; auto.
          right. rewrite <- H. now apply memS_true.
        + apply IH. simpl in H. destruct H as [[H|H]|H]; auto; right; [left; auto|right; auto]. }
    apply G2. auto.
Qed.

Example ifname_check_case :
  unique_ifnames [] [mk_nif None 1 "eth1" None None; mk_nif None 2 "eth2" None None;
                     mk_nif None 7 "eth1" None None] = [7].
Proof. reflexivity. Qed.

(* ------------------------------------------------------------------ *)
(* C11 *)

(* everything except the k-th element *)
Definition without {A} (k : nat) (l : list A) : list A := firstn k l ++ skipn (S k) l.

Lemma ngh_loop_skip : forall all me pos, (me < pos)%nat -> ngh_loop me pos all = map to_ngh all.
Proof.
  induction all as [|e r IH]; intros me pos H; simpl; auto.
  destruct (Nat.eqb_spec pos me); [lia|]. f_equal. apply IH. lia.
Qed.

Lemma ngh_loop_without : forall all me pos,
  ngh_loop (me + pos) pos all = map to_ngh (without me all).
Proof.
  induction all as [|e r IH]; intros me pos; simpl.
  - unfold without. now rewrite firstn_nil, skipn_nil.
  - destruct (Nat.eqb_spec pos (me + pos)) as [E|E].
    + assert (me = O) by lia. subst. unfold without. simpl. apply ngh_loop_skip. lia.
    + destruct me as [|me]; [lia|]. replace (S me + pos)%nat with (me + S pos)%nat by lia.
      rewrite IH. unfold without. reflexivity.
Qed.

Lemma phase2_nth : forall is k, (k < length is)%nat ->
  nth_error (create_phase2 is) k = Some (map to_ngh (without k is)).
Proof.
  intros is k H. unfold create_phase2.
  rewrite nth_error_map. rewrite (nth_error_nth' (seq 0 (length is)) O) by (rewrite seq_length; auto).
  rewrite seq_nth by auto. simpl. f_equal. rewrite <- (ngh_loop_without is k O). f_equal. lia.
Qed.

(* what a created interface must look like, independent of index allocation *)
Definition matches (r : request) (i : nif) : Prop :=
  ni_type i = r_type r /\ ni_v4 i = r_v4 r /\ ni_v6 i = r_v6 r /\
  (forall s, r_ifname r = Some s -> ni_ifname i = s) /\
  (forall x, r_ifindex r = Some x -> ni_ifindex i = x).

Lemma make_matches : forall d l r i err, make_interface d l r = (i, err) -> matches r i.
Proof.
  intros d l r i err H. unfold make_interface in H. unfold matches.
  destruct (r_type r) as [t|] eqn:T; [destruct (memS t virtual_types)|];
  destruct (r_ifindex r) as [x|]; try destruct (get_unique_ifindex _ _ _) as [x e];
  inversion H; subst; simpl; rewrite ?T; repeat split; auto;
  try (intros s Hs; rewrite Hs; reflexivity); intros; congruence.
Qed.

(* the interfaces of a node after phase 1: those it had plus the new ones of this link *)
Definition new_for (nd : string) (is : list (string * nif)) : list nif :=
  map snd (filter (fun e => String.eqb (fst e) nd) is).

Lemma phase1_spec : forall lk ns is ns' n,
  create_phase1 lk ns = Some (is, ns', n) ->
  Forall2 (fun q e => fst e = fst q /\ matches (snd q) (snd e)) lk is /\
  (forall nd d l, dget nd ns = Some (d, l) -> dget nd ns' = Some (d, l ++ new_for nd is)).
Proof.
  induction lk as [|[nd r] t IH]; intros ns is ns' n H; simpl in H.
  - inversion H; subst. split; [constructor|]. intros. rewrite app_nil_r. auto.
  - destruct (dget nd ns) as [[d l]|] eqn:E; [|discriminate].
    destruct (make_interface d l r) as [i err] eqn:M.
    destruct (create_phase1 t (dset nd (d, l ++ [i]) ns)) as [[[is1 ns1] n1]|] eqn:P; [|discriminate].
    inversion H; subst. apply IH in P. destruct P as [P1 P2]. split.
    + constructor; auto. split; auto. simpl. eapply make_matches; eauto.
    + intros nd' d' l' Hd. unfold new_for. simpl.
      destruct (String.eqb_spec nd nd') as [->|Nn].
      * rewrite E in Hd. inversion Hd; subst.
        rewrite (P2 nd' d' (l' ++ [i])) by apply dget_dset_same.
        simpl. rewrite <- app_assoc. reflexivity.
      * apply P2. rewrite dget_dset_other; auto.
Qed.

(* Every interface of a link becomes one interface of its node, and its neighbor list names
   exactly the other interfaces of the link, in link order, with their final names and
   addresses. *)
Theorem neighbors_complete : forall lk ns is ns' n,
  create_phase1 lk ns = Some (is, ns', n) ->
  length (create_phase2 is) = length lk /\
  Forall2 (fun q e => fst e = fst q /\ matches (snd q) (snd e)) lk is /\
  (forall nd d l, dget nd ns = Some (d, l) -> dget nd ns' = Some (d, l ++ new_for nd is)) /\
  forall k, (k < length lk)%nat ->
    nth_error (create_phase2 is) k =
      Some (map (fun e => mk_ngh (fst e) (ni_ifname (snd e)) (ni_v4 (snd e)) (ni_v6 (snd e)))
                (without k is)).
Proof.
  intros lk ns is ns' n H. apply phase1_spec in H. destruct H as [H1 H2].
  pose proof (Forall2_length H1) as L.
  split; [unfold create_phase2; rewrite map_length, seq_length; auto|].
  split; auto. split; auto. intros k Hk. rewrite phase2_nth by lia. reflexivity.
Qed.

Definition names (e : string * nif) : string * string := (fst e, ni_ifname (snd e)).

(* interface k of the link has a neighbor entry for interface j *)
Definition lists (is : list (string * nif)) (k j : nat) : Prop :=
  exists nl x e, nth_error (create_phase2 is) k = Some nl /\ In x nl /\
    nth_error is j = Some e /\ n_node x = fst e /\ n_ifname x = ni_ifname (snd e).

Lemma without_In : forall A (l : list A) k x,
  In x (without k l) <-> exists j, j <> k /\ nth_error l j = Some x.
Proof.
  induction l as [|a r IH]; intros k x; unfold without.
  - rewrite firstn_nil, skipn_nil. simpl. split; [tauto|]. intros [[|j] [_ H]]; discriminate.
  - destruct k as [|k].
    + simpl. split.
      * intros H. apply In_nth_error in H. destruct H as [j Hj]. exists (S j). split; auto.
      * intros [[|j] [H1 H2]]; [contradiction|]. simpl in H2. eapply nth_error_In; eauto.
    + simpl. specialize (IH k x). unfold without in IH. rewrite IH. split.
      * intros [H|[j [H1 H2]]]; [subst; exists O; auto | exists (S j); auto].
      * intros [[|j] [H1 H2]]; simpl in H2; [inversion H2; auto|]. right. exists j. auto.
Qed.

(* Symmetry: when interfaces can be told apart by node and interface name, interface k lists
   interface j exactly when they are different interfaces of the link. *)
Theorem neighbors_symmetric : forall is k j,
  NoDup (map names is) -> (k < length is)%nat -> (j < length is)%nat ->
  (lists is k j <-> k <> j) /\ (lists is k j <-> lists is j k).
Proof.
  assert (G : forall is k j, NoDup (map names is) -> (k < length is)%nat -> (j < length is)%nat ->
             (lists is k j <-> k <> j)).
  { intros is k j N Hk Hj. split.
    - intros [nl [x [e [H1 [H2 [H3 [H4 H5]]]]]]] ->.
      rewrite phase2_nth in H1 by auto. inversion H1; subst nl. clear H1.
      apply in_map_iff in H2. destruct H2 as [f [Hf H2]]. apply without_In in H2.
      destruct H2 as [i [Hi1 Hi2]]. subst x. simpl in H4, H5.
      apply Hi1. eapply (NoDup_nth_error (map names is)); auto.
      + rewrite map_length. apply nth_error_Some. congruence.
      + rewrite !nth_error_map, H3, Hi2. simpl. unfold names. congruence.
    - intros Hne. destruct (nth_error is j) as [e|] eqn:E.
      2:{ apply nth_error_None in E. lia. }
      exists (map to_ngh (without k is)), (to_ngh e), e.
      split; [apply phase2_nth; auto|]. split; auto.
      apply in_map. apply without_In. exists j. auto. }
  intros is k j N Hk Hj. rewrite !G by auto. split; [tauto|]. split; auto.
Qed.

(* Automatic names: with name templates that separate indices and classes, the hypothesis of
   [neighbors_symmetric] holds for every link built from automatic requests without errors,
   also when a node is attached several times. *)
Definition class_base (c : string) : Z :=
  if string_dec c "loopback" then 10000
  else if string_dec c "tunnel" then 20000
  else if string_dec c "lag" then 30000
  else if string_dec c "svi" then 40000
  else 0.

Definition template (d : dev) (c : string) (x : Z) : string :=
  if string_dec c "" then d_name d x else d_vname d c (x - class_base c).

Definition classes : list string := [""; "loopback"; "tunnel"; "lag"; "svi"]%string.

(* name templates tell apart the indices that can occur *)
Definition good_templates (d : dev) : Prop :=
  (forall o, d_offset d = Some o -> 0 <= o) /\ (forall o, d_lb_offset d = Some o -> 0 <= o) /\
  forall c c' x x', In c classes -> In c' classes -> class_base c <= x -> class_base c' <= x' ->
    template d c x = template d c' x' -> c = c' /\ x = x'.

Definition full_auto (r : request) : Prop := r_ifindex r = None /\ r_ifname r = None.

Lemma make_name : forall d l r i err, full_auto r -> make_interface d l r = (i, err) ->
  ni_ifname i = template d (class_of (ni_type i)) (ni_ifindex i).
Proof.
  intros d l r i err [A1 A2] H. unfold make_interface in H. rewrite A1, A2 in H.
  destruct (r_type r) as [t|] eqn:T.
  - destruct (memS t virtual_types) eqn:V.
    + destruct (get_unique_ifindex _ _ _) as [x e]. inversion H; subst. cbn [ni_ifname ni_type ni_ifindex].
      rewrite (virtual_class t V). apply virtual_cases in V.
      destruct V as [->|[->|[->| ->]]]; reflexivity.
    + destruct (get_unique_ifindex _ _ _) as [x e]. inversion H; subst. cbn [ni_ifname ni_type ni_ifindex].
      rewrite (regular_class t V). reflexivity.
  - destruct (get_unique_ifindex _ _ _) as [x e]. inversion H; subst. reflexivity.
Qed.

Definition node_ok (d : dev) (l : list nif) : Prop :=
  NoDup (map if_key l) /\
  forall i, In i l -> ni_ifname i = template d (class_of (ni_type i)) (ni_ifindex i) /\
                      class_base (class_of (ni_type i)) <= ni_ifindex i.

Lemma class_in : forall t, In (class_of t) classes.
Proof.
  intros [t|]; [|simpl; auto]. unfold class_of. destruct (in_dec _ _ _) as [Hin|]; [right; exact Hin|left; auto].
Qed.

Lemma base_le_first : forall d c, good_templates d -> class_base c <= first_index d c.
Proof.
  intros d c [G1 [G2 _]]. unfold class_base, first_index.
  destruct (string_dec c "loopback").
  - destruct (d_lb_offset d) as [o|]; [specialize (G2 o eq_refl); destruct (Z.eq_dec o 0)|]; lia.
  - destruct (string_dec c "tunnel"); [lia|]. destruct (string_dec c "lag"); [lia|].
    destruct (string_dec c "svi"); [lia|]. destruct (d_offset d) as [o|]; [apply G1; auto|lia].
Qed.

Lemma node_ok_names : forall d l, good_templates d -> node_ok d l -> NoDup (map ni_ifname l).
Proof.
  intros d l G [N T]. induction l as [|i r IH]; simpl; constructor; inversion N; subst.
  - intros C. apply in_map_iff in C. destruct C as [j [Hj1 Hj2]]. apply H1.
    destruct (T i) as [Ti Bi]; [left; auto|]. destruct (T j) as [Tj Bj]; [right; auto|].
    rewrite Ti, Tj in Hj1. destruct G as [_ [_ G]].
    apply G in Hj1; auto using class_in. destruct Hj1 as [Hc Hx].
    replace (if_key i) with (if_key j) by (unfold if_key; congruence). now apply in_map.
  - apply IH; auto. intros j Hj; apply T; right; auto.
Qed.

Lemma phase1_ok : forall lk ns is ns' n,
  (forall q, In q lk -> full_auto (snd q)) ->
  (forall nd d l, dget nd ns = Some (d, l) -> good_templates d /\ node_ok d l) ->
  create_phase1 lk ns = Some (is, ns', n) -> n = O ->
  forall nd d l, dget nd ns' = Some (d, l) -> good_templates d /\ node_ok d l.
Proof.
  induction lk as [|[nd r] t IH]; intros ns is ns' n Ha Hok H Hn; simpl in H.
  - inversion H; subst. auto.
  - destruct (dget nd ns) as [[d l]|] eqn:E; [|discriminate].
    destruct (make_interface d l r) as [i err] eqn:M.
    destruct (create_phase1 t (dset nd (d, l ++ [i]) ns)) as [[[is1 ns1] n1]|] eqn:P; [|discriminate].
    inversion H; subst is ns' n. clear H.
    assert (FA : full_auto r) by (apply (Ha (nd, r)); left; auto).
    assert (err = false) by (destruct err; [simpl in *; lia|auto]). subst err.
    eapply IH; [| |exact P|simpl in *; lia].
    + intros q Hq; apply Ha; right; auto.
    + intros nd' d' l' Hd. destruct (string_dec nd' nd) as [->|Nn].
      * rewrite dget_dset_same in Hd. inversion Hd; subst d' l'.
        destruct (Hok nd d l E) as [Gt [O1 O2]]. split; auto.
        pose proof (make_name d l r i false FA M) as MN.
        apply make_auto in M; [|apply FA]. destruct M as [M0 [[_ [M1 [M2 M3]]]|[C _]]]; [|discriminate].
        split.
        -- rewrite map_app. apply NoDup_snoc; auto. simpl. unfold if_key. rewrite M0. exact M2.
        -- intros j Hj. apply in_app_iff in Hj. destruct Hj as [Hj|[<-|[]]]; auto.
           split; auto. rewrite M0. pose proof (base_le_first d (class_of (r_type r)) Gt). lia.
      * rewrite dget_dset_other in Hd by auto. eauto.
Qed.

Theorem neighbor_names_unique : forall lk ns is ns',
  (forall q, In q lk -> full_auto (snd q)) ->
  (forall nd d l, dget nd ns = Some (d, l) -> good_templates d /\ node_ok d l) ->
  create_phase1 lk ns = Some (is, ns', O) ->
  NoDup (map names is).
Proof.
  intros lk ns is ns' Ha Hok H.
  assert (K : forall e, In e is -> exists d l, dget (fst e) ns = Some (d, l)).
  { clear Ha. revert ns is ns' Hok H. generalize O as n.
    induction lk as [|[nd r] t IH]; intros n ns is ns' Hok H e He; simpl in H.
    - inversion H; subst. contradiction.
    - destruct (dget nd ns) as [[d l]|] eqn:E; [|discriminate].
      destruct (make_interface d l r) as [i err] eqn:M.
      destruct (create_phase1 t (dset nd (d, l ++ [i]) ns)) as [[[is1 ns1] n1]|] eqn:P; [|discriminate].
      inversion H; subst is. destruct He as [<-|He]; [simpl; eauto|].
      assert (Gn : forall lk ns is ns' n, create_phase1 lk ns = Some (is, ns', n) ->
         forall e, In e is -> exists v, dget (fst e) ns = Some v).
      { clear. induction lk as [|[nd r] t IH]; intros ns is ns' n H e He; simpl in H.
        - inversion H; subst. contradiction.
        - destruct (dget nd ns) as [[d l]|] eqn:E; [|discriminate].
          destruct (make_interface d l r) as [i err].
          destruct (create_phase1 t (dset nd (d, l ++ [i]) ns)) as [[[is1 ns1] n1]|] eqn:P; [|discriminate].
          inversion H; subst is. destruct He as [<-|He]; [simpl; eauto|].
          destruct (IH _ _ _ _ P e He) as [v Hv].
          destruct (string_dec (fst e) nd) as [Eq|Nn].
          + rewrite Eq. eauto.
          + rewrite dget_dset_other in Hv by auto. eauto. }
      destruct (Gn _ _ _ _ _ P e He) as [[d' l'] Hv].
      destruct (string_dec (fst e) nd) as [Eq|Nn].
      + rewrite Eq. eauto.
      + rewrite dget_dset_other in Hv by auto. eauto. }
  assert (Ok' : forall nd d l, dget nd ns' = Some (d, l) -> node_ok d l).
  { intros. eapply phase1_ok; eauto. }
  destruct (phase1_spec _ _ _ _ _ H) as [_ P2].
  (* names of the new interfaces of one node are distinct *)
  assert (Per : forall nd, NoDup (map ni_ifname (new_for nd is))).
  { intros nd. destruct (dget nd ns) as [[d l]|] eqn:E.
    - pose proof (P2 nd d l E) as E'. destruct (Hok nd d l E) as [Gt _].
      pose proof (node_ok_names d _ Gt (Ok' nd d _ E')) as N. rewrite map_app in N.
      apply NoDup_app_elim in N. tauto.
    - assert (new_for nd is = []).
      { unfold new_for. destruct (filter _ is) as [|e r] eqn:F; auto. exfalso.
        assert (Hin : In e (filter (fun e => String.eqb (fst e) nd) is)) by (rewrite F; left; auto).
        apply filter_In in Hin. destruct Hin as [Hin Heq]. apply String.eqb_eq in Heq.
        destruct (K e Hin) as [d [l Hd]]. congruence. }
      rewrite H0. constructor. }
  clear - Per. induction is as [|e r IH]; simpl; constructor.
  - intros C. apply in_map_iff in C. destruct C as [f [Hf1 Hf2]]. unfold names in Hf1. inversion Hf1.
    specialize (Per (fst e)). unfold new_for in Per. simpl in Per. rewrite String.eqb_refl in Per.
    simpl in Per. inversion Per; subst. apply H3. rewrite <- H1. rewrite map_map.
    apply in_map_iff. exists f. split; auto. apply filter_In. split; auto. rewrite H0. apply String.eqb_refl.
  - apply IH. intros nd. specialize (Per nd). unfold new_for in *. simpl in Per.
    destruct (String.eqb (fst e) nd); auto. simpl in Per. now inversion Per.
Qed.

(* templates such as "e1", "loopback1" qualify *)
Example good_templates_case : good_templates dev0 /\ node_ok dev0 [].
Proof.
  split; [|split; [constructor|intros i []]].
  split; [intros o H; inversion H; lia|]. split; [discriminate|].
  assert (D : forall a b, 0 <= a -> 0 <= b -> dec (Z.to_nat a) = dec (Z.to_nat b) -> a = b).
  { intros a b Ha Hb H. apply (f_equal (fun s => read_dec s 0)) in H. rewrite !dec_read in H. lia. }
  intros c c' x x' Hc Hc' Hx Hx' H. unfold classes in Hc, Hc'. simpl In in Hc, Hc'.
  repeat (destruct Hc as [<-|Hc]; [|]); try contradiction;
  repeat (destruct Hc' as [<-|Hc']; [|]); try contradiction;
  unfold template, class_base, dev0 in *; simpl in H, Hx, Hx';
  try discriminate; split; auto; inversion H as [H1]; apply D in H1; lia.
Qed.

(* one node attached twice to a link with another node *)
Example neighbors_case :
  let ns := [("a", (dev0, [])); ("b", (dev0, []))]%string in
  let q n a := (n, mk_req None None None (Some a) None) in
  exists is ns', create_phase1 [q "a" "10.0.0.1"; q "b" "10.0.0.2"; q "a" "10.0.0.3"]%string ns = Some (is, ns', O) /\
    map (map n_ifname) (create_phase2 is) = [["e1"; "e2"]; ["e1"; "e2"]; ["e1"; "e1"]]%string /\
    map (map n_node) (create_phase2 is) = [["b"; "a"]; ["a"; "a"]; ["a"; "b"]]%string.
Proof. eexists; eexists. split; [vm_compute; reflexivity|]. split; vm_compute; reflexivity. Qed.

(* ------------------------------------------------------------------ *)
(* C12 *)

Lemma set_linkindex_nth : forall A (l : list A) s k,
  nth_error (set_linkindex s l) k =
  match nth_error l k with Some x => Some (x, s + Z.of_nat k) | None => None end.
Proof.
  induction l as [|x r IH]; intros s k.
  - destruct k; reflexivity.
  - destruct k as [|k]; simpl nth_error.
    + rewrite Z.add_0_r. reflexivity.
    + rewrite IH. destruct (nth_error r k); auto. f_equal. f_equal. lia.
Qed.

Definition consecutive {A} (start : Z) (l : list (A * Z)) : Prop :=
  forall k x i, nth_error l k = Some (x, i) -> i = start + Z.of_nat k.

Lemma append_consecutive : forall A start (l : list (A * Z)) x,
  consecutive start l -> append_link start l x = l ++ [(x, start + Z.of_nat (length l))] /\
  consecutive start (append_link start l x).
Proof.
  intros A start l x C.
  assert (E : append_link start l x = l ++ [(x, start + Z.of_nat (length l))]).
  { unfold append_link, get_next_linkindex. f_equal. f_equal. f_equal.
    destruct (rev l) as [|[y i] r] eqn:R.
    - apply (f_equal (@length _)) in R. rewrite rev_length in R. simpl in R. rewrite R. lia.
    - assert (Hl : l = rev r ++ [(y, i)]) by (rewrite <- (rev_involutive l), R; reflexivity).
      assert (Hn : nth_error l (length (rev r)) = Some (y, i)).
      { rewrite Hl, nth_error_app2 by lia. now rewrite Nat.sub_diag. }
      apply C in Hn. rewrite Hn, Hl, app_length. simpl. lia. }
  split; auto. rewrite E. intros k y i H.
  destruct (Nat.lt_ge_cases k (length l)) as [Hk|Hk].
  - rewrite nth_error_app1 in H by auto. apply C in H. auto.
  - rewrite nth_error_app2 in H by auto.
    destruct (k - length l)%nat as [|m] eqn:D; simpl in H; [|destruct m; discriminate].
    inversion H; subst. lia.
Qed.

(* Link k (of the original links followed by all appended ones) has index start + k. *)
Theorem link_indices_consecutive : forall A start (l added : list A),
  let r := fold_left (append_link start) added (set_linkindex start l) in
  map fst r = l ++ added /\
  (forall k x i, nth_error r k = Some (x, i) -> i = start + Z.of_nat k) /\
  NoDup (map snd r) /\
  (forall k x, nth_error (l ++ added) k = Some x -> get_link_by_index r (start + Z.of_nat k) = Some x).
Proof.
  intros A start l added r.
  assert (G : forall (added : list A) (acc : list (A * Z)), consecutive start acc ->
     consecutive start (fold_left (append_link start) added acc) /\
     map fst (fold_left (append_link start) added acc) = map fst acc ++ added).
  { clear. induction added as [|x t IH]; intros acc C; simpl; [rewrite app_nil_r; auto|].
    destruct (append_consecutive A start acc x C) as [E C'].
    destruct (IH _ C') as [I1 I2]. split; auto. rewrite I2, E, map_app, <- app_assoc. reflexivity. }
  assert (C0 : consecutive start (set_linkindex start l)).
  { intros k x i H. rewrite set_linkindex_nth in H. destruct (nth_error l k); [|discriminate].
    inversion H; auto. }
  destruct (G added _ C0) as [G1 G2]. fold r in G1, G2.
  assert (F : map fst r = l ++ added).
  { rewrite G2. f_equal. clear. generalize start. induction l as [|x t IH]; intros s; simpl; auto. now rewrite IH. }
  split; auto. split; [exact G1|].
  assert (Nth : forall k i, nth_error (map snd r) k = Some i -> i = start + Z.of_nat k).
  { intros k i H. rewrite nth_error_map in H. destruct (nth_error r k) as [[x j]|] eqn:E; [|discriminate].
    inversion H; subst. eapply G1; eauto. }
  split.
  - apply NoDup_nth_error. intros i j Hi E.
    destruct (nth_error (map snd r) i) as [a|] eqn:Ei; [|apply nth_error_None in Ei; lia].
    symmetry in E. apply Nth in Ei. apply Nth in E. lia.
  - intros k x H. rewrite <- F, nth_error_map in H.
    destruct (nth_error r k) as [[y j]|] eqn:E; [|discriminate]. inversion H; subst y. clear H.
    assert (Gl : forall (q : list (A * Z)) s k x j, (forall k x i, nth_error q k = Some (x, i) -> i = s + Z.of_nat k) ->
               nth_error q k = Some (x, j) -> get_link_by_index q (s + Z.of_nat k) = Some x).
    { clear. induction q as [|[y i] t IH]; intros s k x j C H; [destruct k; discriminate|].
      pose proof (C O y i eq_refl) as C0. destruct k as [|k]; cbn [get_link_by_index].
      - simpl in H. inversion H; subst. rewrite Z.eqb_refl. auto.
      - destruct (Z.eqb_spec i (s + Z.of_nat (S k))); [lia|].
        replace (s + Z.of_nat (S k)) with ((s + 1) + Z.of_nat k) by lia.
        eapply IH; [|exact H]. intros m z p Hm. specialize (C (S m) z p Hm). lia. }
    eapply Gl; eauto.
Qed.

Example link_indices_case :
  fold_left (append_link 1) ["x"; "y"]%string (set_linkindex 1 ["a"; "b"]%string)
  = [("a", 1); ("b", 2); ("x", 3); ("y", 4)]%string.
Proof. reflexivity. Qed.

(* ------------------------------------------------------------------ *)
(* C56: bridge names *)

Lemma append_inj_l : forall p a b, (p ++ a)%string = (p ++ b)%string -> a = b.
Proof. induction p as [|c p IH]; simpl; intros a b H; auto. inversion H; auto. Qed.

(* Bridges of different links of a topology have different names. *)
Theorem bridge_names_unique : forall name i j,
  bridge_name name i = bridge_name name j -> i = j.
Proof.
  intros name i j H. unfold bridge_name in H. apply append_inj_l in H. apply append_inj_l in H.
  rewrite <- (dec_read i), <- (dec_read j). now rewrite H.
Qed.

Lemma dec_loop_length : forall k f n acc, (n < f)%nat -> (n < 10 ^ S k)%nat ->
  (String.length (dec_loop f n acc) <= S k + String.length acc)%nat.
Proof.
  induction k as [|k IH]; intros f n acc Hf Hn; destruct f as [|f]; try lia; cbn [dec_loop].
  - change (10 ^ 1)%nat with 10%nat in Hn. destruct (Nat.ltb_spec n 10); [|lia]. simpl. lia.
  - destruct (Nat.ltb_spec n 10); [simpl; lia|].
    rewrite (IH f (n / 10)%nat).
    + simpl. lia.
    + assert (n / 10 < n)%nat by (apply Nat.div_lt; lia). lia.
    + apply Nat.div_lt_upper_bound; [lia|]. rewrite Nat.pow_succ_r' in Hn. exact Hn.
Qed.

Lemma substring_length_le : forall s n, (String.length (substring 0 n s) <= n)%nat.
Proof. induction s as [|c s IH]; destruct n; simpl; try lia. specialize (IH n). lia. Qed.

Lemma append_length : forall a b, String.length (a ++ b)%string = (String.length a + String.length b)%nat.
Proof. induction a; simpl; auto. Qed.

(* They fit into the 15 characters of a Linux interface name for link indices up to 9999. *)
Theorem bridge_name_fits : forall name i,
  Z.of_nat i <= 9999 -> (String.length (bridge_name name i) <= 15)%nat.
Proof.
  intros name i H. unfold bridge_name. rewrite !append_length.
  pose proof (substring_length_le name 10) as H1.
  assert (H2 : (String.length (dec i) <= 4)%nat).
  { unfold dec. pose proof (dec_loop_length 3 (S i) i EmptyString) as L. simpl String.length in L.
    assert (E : Z.of_nat (10 ^ 4) = 10000) by (rewrite Nat2Z.inj_pow; reflexivity).
    assert (i < 10 ^ 4)%nat by lia. rewrite Nat.add_0_r in L. apply L; [lia|exact H0]. }
  simpl. lia.
Qed.

Theorem bridge_name_too_long_refuted :
  exists name i, Z.of_nat i = 10000 /\ String.length (bridge_name name i) = 16%nat.
Proof.
  exists "datacenter-west"%string, (Z.to_nat 10000). split; [reflexivity|]. vm_compute. reflexivity.
Qed.

Example bridge_name_case : bridge_name "datacenter-west" 42 = "datacenter_42"%string.
Proof. reflexivity. Qed.

(* ------------------------------------------------------------------ *)
(* C57: link types *)

(* The type chosen by default passes the link type check, and a link that passes the check has
   the number of nodes its type requires. *)
Theorem default_link_type_accepted : forall n h,
  (1 <= n)%nat -> check_link_type (get_default_link_type n h) n = true.
Proof.
  intros n h H. unfold get_default_link_type.
  destruct n as [|[|[|n]]]; [lia| | |]; destruct h; reflexivity.
Qed.

Theorem accepted_link_type_sound : forall t n,
  check_link_type t n = true <->
  (1 <= n)%nat /\ (t = P2p -> n = 2%nat) /\ (t = Stub -> n = 1%nat) /\ (t = Loopback -> n = 1%nat).
Proof.
  intros t n. unfold check_link_type.
  destruct (Nat.eqb_spec n 0) as [->|Hn].
  - split; [discriminate|]. intros [H _]; lia.
  - destruct t; split; intros H;
    repeat match goal with
      | H : (_ =? _)%nat = true |- _ => apply Nat.eqb_eq in H
      | H : (_ <=? _)%nat = true |- _ => apply Nat.leb_le in H
      | |- (_ =? _)%nat = true => apply Nat.eqb_eq
      | |- (_ <=? _)%nat = true => apply Nat.leb_le end;
    try (repeat split; try discriminate; lia); auto; destruct H as [H1 [H2 [H3 H4]]];
    try specialize (H2 eq_refl); try specialize (H3 eq_refl); try specialize (H4 eq_refl); lia.
Qed.

Example link_type_case :
  get_default_link_type 2 0 = P2p /\ get_default_link_type 2 1 = Lan /\ check_link_type P2p 3 = false.
Proof. auto. Qed.

Print Assumptions auto_ifindex_unique.
Print Assumptions auto_ifindex_smallest_free.
Print Assumptions auto_ifindex_globally_unique.
Print Assumptions explicit_ifindex_duplicate_refuted.
Print Assumptions ifname_check_exact.
Print Assumptions neighbors_complete.
Print Assumptions neighbors_symmetric.
Print Assumptions neighbor_names_unique.
Print Assumptions link_indices_consecutive.
Print Assumptions bridge_names_unique.
Print Assumptions bridge_name_fits.
Print Assumptions bridge_name_too_long_refuted.
Print Assumptions default_link_type_accepted.
Print Assumptions accepted_link_type_sound.
