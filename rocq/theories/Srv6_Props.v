(* Property C175: SRv6 locators. *)
From Coq Require Import String Ascii ZArith Lia Bool List.
From Verif Require Import Base Text_Model Srv6_Model.
Import ListNotations.
Local Open Scope string_scope.
Local Open Scope list_scope.

(* ------------------------------------------------------------------ *)
(* Specification                                                        *)

(* a hexadecimal digit, and the value of a list of digits *)
Definition digit (c : ascii) (d : Z) : Prop := exists k, d = Z.of_nat k /\
  (nth_error (list_ascii_of_string "0123456789abcdef") k = Some c \/ nth_error (list_ascii_of_string "0123456789ABCDEF") k = Some c).
Fixpoint value (acc : Z) (l : list Z) : Z := match l with [] => acc | d :: r => value (16 * acc + d) r end.

(* value of a part of an address: one to four hexadecimal digits *)
Definition part (s : string) (z : Z) : Prop :=
  exists ds, Forall2 digit (list_ascii_of_string s) ds /\ 1 <= length ds <= 4 /\ z = value 0 ds.

(* a prefix of at most three parts *)
Definition good_prefix (pfx : string) (vs : list Z) : Prop := Forall2 part (split ":" pfx) vs /\ length vs <= 3.

(* an address (eight parts) in a network with a prefix length, the length a multiple of 16 bits *)
Definition within (a net : list Z) (parts : nat) : Prop := firstn parts a = firstn parts net.

(* ------------------------------------------------------------------ *)
(* Hexadecimal numbers                                                  *)

Lemma hexval_char : forall z, (0 <= z < 16)%Z -> hexval (hexchar z) = Some z.
Proof.
  intros z H. assert (C : In z [0;1;2;3;4;5;6;7;8;9;10;11;12;13;14;15]%Z) by (cbn [In]; lia).
  cbn [In] in C. repeat (destruct C as [C|C]; [subst z; reflexivity|]). destruct C.
Qed.

Lemma digits_ok : forall fuel z, (0 <= z)%Z -> (z < Z.of_nat fuel)%Z ->
  Forall (fun d => 0 <= d < 16)%Z (hex_digits fuel z) /\ fold_left (fun a x => 16 * a + x)%Z (hex_digits fuel z) 0%Z = z /\ 1 <= length (hex_digits fuel z) /\
  forall k, 1 <= k -> (length (hex_digits fuel z) <= k <-> (z < 16 ^ Z.of_nat k)%Z).
Proof.
  induction fuel as [|f IH]; intros z Z0 L; [lia|]. cbn [hex_digits]. destruct (Z.ltb_spec z 16) as [S1|S1].
  - split; [constructor; [lia|constructor]|]. split; [cbn [fold_left]; lia|]. split; [cbn [length]; lia|]. intros k K. cbn [length]. split; [intros _|lia].
    assert (P : (16 ^ 1 <= 16 ^ Z.of_nat k)%Z) by (apply Z.pow_le_mono_r; lia). lia.
  - assert (D1 : (0 <= z / 16)%Z) by (apply Z.div_pos; lia). assert (D2 : (z / 16 < Z.of_nat f)%Z) by (assert (z / 16 < z)%Z by (apply Z.div_lt; lia); lia).
    destruct (IH _ D1 D2) as [A [B [C D]]]. pose proof (Z.mod_pos_bound z 16 ltac:(lia)) as M. split; [apply Forall_app; split; [exact A|constructor; [exact M|constructor]]|].
    split; [rewrite fold_left_app, B; cbn [fold_left]; pose proof (Z.div_mod z 16 ltac:(lia)); lia|]. rewrite app_length. cbn [length]. split; [lia|]. intros k K.
    destruct (Nat.eq_dec k 1) as [Q|Q]; [subst k; change (16 ^ Z.of_nat 1)%Z with 16%Z; lia|]. specialize (D (k - 1) ltac:(lia)).
    assert (P : (16 ^ Z.of_nat k = 16 * 16 ^ Z.of_nat (k - 1))%Z).
    { replace (Z.of_nat k) with (Z.succ (Z.of_nat (k - 1))) by lia. apply Z.pow_succ_r. lia. }
    rewrite P. assert (DM : (z / 16 < 16 ^ Z.of_nat (k - 1) <-> z < 16 * 16 ^ Z.of_nat (k - 1))%Z).
    { split; intros H; [|apply Z.div_lt_upper_bound; lia]. pose proof (Z.div_mod z 16 ltac:(lia)). lia. }
    rewrite <- DM, <- D. lia.
Qed.

Lemma sequence_map : forall l, Forall (fun d => 0 <= d < 16)%Z l -> sequence (map hexval (map hexchar l)) = Some l.
Proof.
  induction l as [|d l IH]; intros F; [reflexivity|]. inversion F as [|x y F1 F2]. subst. cbn [map sequence]. rewrite (hexval_char d F1), (IH F2). reflexivity.
Qed.

Lemma hex_part : forall z, (0 <= z)%Z -> parse_part (hex z) = if (z <? 65536)%Z then Some z else None.
Proof.
  intros z Z0. unfold parse_part, hex. rewrite list_ascii_of_string_of_list_ascii. rewrite map_length.
  destruct (digits_ok (S (Z.to_nat z)) z Z0 ltac:(lia)) as [A [B [C D]]]. set (l := hex_digits (S (Z.to_nat z)) z) in *. clearbody l.
  rewrite (sequence_map l A), B. specialize (D 4 ltac:(lia)). change (16 ^ Z.of_nat 4)%Z with 65536%Z in D.
  destruct (Z.ltb_spec z 65536) as [L|L].
  - assert (E1 : Nat.leb 1 (length l) = true) by (apply Nat.leb_le; lia). assert (E2 : Nat.leb (length l) 4 = true) by (apply Nat.leb_le; lia). rewrite E1, E2. reflexivity.
  - assert (E2 : Nat.leb (length l) 4 = false) by (apply Nat.leb_gt; lia). rewrite E2, andb_false_r. reflexivity.
Qed.

Lemma hexval_digit : forall c d, hexval c = Some d <-> digit c d.
Proof.
  intros c d. split.
  - intros H. destruct c as [[|] [|] [|] [|] [|] [|] [|] [|]]; vm_compute in H; try discriminate H; injection H as H; subst d;
      match goal with |- digit _ ?z => exists (Z.to_nat z); split; [reflexivity|first [left; reflexivity|right; reflexivity]] end.
  - intros [k [D H]]. subst d. assert (K : k < 16).
    { destruct H as [H|H]; apply (proj1 (nth_error_Some _ _)) || (assert (NN : nth_error _ k <> None) by (rewrite H; discriminate); apply nth_error_Some in NN; exact NN). }
    do 16 (destruct k as [|k]; [destruct H as [H|H]; vm_compute in H; injection H as H; subst c; reflexivity|]). lia.
Qed.

Lemma value_fold : forall l acc, fold_left (fun a x => 16 * a + x)%Z l acc = value acc l.
Proof. induction l as [|d l IH]; intros acc; [reflexivity|]. cbn [fold_left value]. apply IH. Qed.

Lemma sequence_digits : forall l ds, sequence (map hexval l) = Some ds <-> Forall2 digit l ds.
Proof.
  induction l as [|c l IH]; intros ds; cbn [map sequence].
  - split; [intros H; injection H as H; subst; constructor|intros H; inversion H; reflexivity].
  - destruct (hexval c) as [d|] eqn:V.
    + destruct (sequence (map hexval l)) as [q|] eqn:S1.
      * split.
        -- intros H. injection H as H. subst ds. constructor; [apply hexval_digit; exact V|apply IH; reflexivity].
        -- intros H. inversion H as [|x y u w H1 H2]. subst. apply hexval_digit in H1. rewrite V in H1. injection H1 as H1. subst. apply IH in H2. injection H2 as H2. subst. reflexivity.
      * split; [discriminate|]. intros H. inversion H as [|x y u w H1 H2]. subst. apply IH in H2. discriminate H2.
    + split; [discriminate|]. intros H. inversion H as [|x y u w H1 H2]. subst. apply hexval_digit in H1. rewrite V in H1. discriminate H1.
Qed.

Lemma parse_part_iff : forall s z, parse_part s = Some z <-> part s z.
Proof.
  intros s z. unfold parse_part, part. set (l := list_ascii_of_string s). clearbody l.
  destruct (Nat.leb 1 (length l) && Nat.leb (length l) 4)%bool eqn:L.
  - apply andb_true_iff in L. destruct L as [L1 L2]. apply Nat.leb_le in L1. apply Nat.leb_le in L2. pose proof (sequence_digits l) as SD. destruct (sequence (map hexval l)) as [q|].
    + rewrite value_fold. split.
      * intros H. injection H as H. subst z. exists q. assert (F : Forall2 digit l q) by (apply SD; reflexivity). split; [exact F|]. split; [|reflexivity].
        apply Forall2_length in F. lia.
      * intros [ds [F [_ E]]]. apply SD in F. injection F as F. subst. reflexivity.
    + split; [discriminate|]. intros [ds [F _]]. apply SD in F. discriminate F.
  - split; [discriminate|]. intros [ds [F [B _]]]. apply Forall2_length in F. rewrite <- F in B. exfalso.
    assert (E1 : Nat.leb 1 (length l) = true) by (apply Nat.leb_le; lia). assert (E2 : Nat.leb (length l) 4 = true) by (apply Nat.leb_le; lia). rewrite E1, E2 in L. discriminate L.
Qed.

(* The text of an identifier: its digits without leading zeros, in lower case. *)
Theorem hex_exact : forall z, (0 <= z)%Z -> exists ds, list_ascii_of_string (hex z) = map (fun d => nth (Z.to_nat d) (list_ascii_of_string "0123456789abcdef") "0"%char) ds /\
  Forall (fun d => 0 <= d < 16)%Z ds /\ value 0 ds = z /\ (z = 0%Z /\ ds = [0%Z] \/ exists d r, ds = d :: r /\ d <> 0%Z).
Proof.
  intros z Z0. exists (hex_digits (S (Z.to_nat z)) z). unfold hex. rewrite list_ascii_of_string_of_list_ascii. split; [reflexivity|].
  destruct (digits_ok (S (Z.to_nat z)) z Z0 ltac:(lia)) as [A [B _]]. split; [exact A|]. split; [rewrite <- value_fold; exact B|].
  clear A B. assert (LZ : (z < Z.of_nat (S (Z.to_nat z)))%Z) by lia. revert LZ. generalize (S (Z.to_nat z)) as fuel. revert z Z0.
  assert (G : forall fuel z, (0 < z)%Z -> (z < Z.of_nat fuel)%Z -> exists d r, hex_digits fuel z = d :: r /\ d <> 0%Z).
  { induction fuel as [|f IH]; intros z P L; [lia|]. cbn [hex_digits]. destruct (Z.ltb_spec z 16) as [S1|S1]; [exists z, []; split; [reflexivity|lia]|].
    assert (D1 : (0 < z / 16)%Z) by (apply Z.div_str_pos; lia). assert (D2 : (z / 16 < z)%Z) by (apply Z.div_lt; lia).
    destruct (IH (z / 16)%Z D1 ltac:(lia)) as [d [r [E N]]]. rewrite E. exists d, (r ++ [(z mod 16)%Z]). split; [reflexivity|exact N]. }
  intros z Z0 fuel L. destruct (Z.eq_dec z 0) as [Q|Q]; [|right; apply G; lia]. left. subst z. split; [reflexivity|]. destruct fuel as [|f]; [lia|reflexivity].
Qed.

Lemma sequence_parts : forall l vs, sequence (map parse_part l) = Some vs <-> Forall2 part l vs.
Proof.
  induction l as [|s l IH]; intros vs; cbn [map sequence].
  - split; [intros H; injection H as H; subst; constructor|intros H; inversion H; reflexivity].
  - destruct (parse_part s) as [z|] eqn:P.
    + destruct (sequence (map parse_part l)) as [q|] eqn:S1.
      * split.
        -- intros H. injection H as H. subst vs. constructor; [apply parse_part_iff; exact P|apply IH; reflexivity].
        -- intros H. inversion H as [|a b c d H1 H2]. subst. apply parse_part_iff in H1. rewrite P in H1. injection H1 as H1. subst. apply IH in H2. injection H2 as H2. subst. reflexivity.
      * split; [discriminate|]. intros H. inversion H as [|a b c d H1 H2]. subst. apply IH in H2. discriminate H2.
    + split; [discriminate|]. intros H. inversion H as [|a b c d H1 H2]. subst. apply parse_part_iff in H1. rewrite P in H1. discriminate H1.
Qed.

Lemma sequence_app : forall a b, sequence (a ++ b) = match sequence a, sequence b with Some x, Some y => Some (x ++ y) | _, _ => None end.
Proof.
  induction a as [|[x|] a IH]; intros b; cbn [app sequence].
  - destruct (sequence b); reflexivity.
  - rewrite IH. destruct (sequence a); [destruct (sequence b); reflexivity|reflexivity].
  - reflexivity.
Qed.

(* ------------------------------------------------------------------ *)

(* The locator of a node: the parts of the prefix, then the identifier of the node. *)
Theorem locator_exact : forall pfx vs id, good_prefix pfx vs -> (0 <= id)%Z ->
  locator_net pfx id = if (id <? 65536)%Z then Some (vs ++ [id] ++ repeat 0%Z (7 - length vs)) else None.
Proof.
  intros pfx vs id [G L] Z0. unfold locator_net. rewrite map_app, sequence_app. cbn [map sequence]. rewrite (hex_part id Z0). apply sequence_parts in G. rewrite G.
  destruct (id <? 65536)%Z; [|reflexivity]. rewrite app_length. cbn [length].
  assert (E : Nat.leb (length vs + 1) 7 = true) by (apply Nat.leb_le; lia). rewrite E. cbn [andb]. rewrite <- app_assoc.
  replace (8 - (length vs + 1)) with (7 - length vs) by lia.
  assert (SK : forallb (Z.eqb 0) (skipn 4 (vs ++ [id] ++ repeat 0%Z (7 - length vs))) = true).
  { rewrite app_assoc. assert (LN : length (vs ++ [id]) <= 4) by (rewrite app_length; cbn [length]; lia). rewrite skipn_app, (skipn_all2 _ LN). cbn [app].
    generalize (4 - length (vs ++ [id])) as k. generalize (7 - length vs) as n. induction n as [|n IHn]; intros k; [destruct k; reflexivity|]. destruct k as [|k]; cbn [repeat skipn forallb]; [|apply IHn].
    specialize (IHn 0). cbn [skipn] in IHn. rewrite IHn. reflexivity. }
  rewrite SK. reflexivity.
Qed.

(* Locators of two nodes have no common address. *)
Theorem locators_disjoint : forall pfx vs a b na nb, good_prefix pfx vs -> (0 <= a)%Z -> (0 <= b)%Z -> a <> b ->
  locator_net pfx a = Some na -> locator_net pfx b = Some nb -> forall addr, within addr na 4 -> ~ within addr nb 4.
Proof.
  intros pfx vs a b na nb G A B N HA HB addr WA WB. rewrite (locator_exact pfx vs a G A) in HA. rewrite (locator_exact pfx vs b G B) in HB.
  destruct (a <? 65536)%Z; [|discriminate HA]. destruct (b <? 65536)%Z; [|discriminate HB].
  assert (EA : na = vs ++ [a] ++ repeat 0%Z (7 - length vs)) by congruence. assert (EB : nb = vs ++ [b] ++ repeat 0%Z (7 - length vs)) by congruence. clear HA HB. subst na nb.
  unfold within in *. rewrite WA in WB. destruct G as [_ L].
  assert (E : forall x, nth_error (firstn 4 (vs ++ [x] ++ repeat 0%Z (7 - length vs))) (length vs) = Some x).
  { intros x. destruct vs as [|v0 [|v1 [|v2 [|v3 r]]]]; try reflexivity. cbn [length] in L. lia. }
  assert (K : Some a = Some b) by (rewrite <- (E a), <- (E b), WB; reflexivity). injection K as K. contradiction.
Qed.

Lemma same_iff : forall a b, same a b = true <-> a = b.
Proof.
  induction a as [|x a IH]; intros [|y b]; cbn [same]; try (split; [reflexivity|reflexivity]); try (split; discriminate).
  rewrite andb_true_iff, Z.eqb_eq, IH. split; [intros [H1 H2]; subst; reflexivity|intros H; injection H as H1 H2; split; assumption].
Qed.

(* The locator of a node, and its errors. *)
Theorem srv6_exact : forall pfx vs n, good_prefix pfx vs -> (0 <= s6_id n)%Z ->
  (srv6_node pfx n = None <-> (65536 <= s6_id n)%Z) /\
  forall n' errs, srv6_node pfx n = Some (n', errs) ->
    n' = mk_s6 (s6_name n) (s6_id n) (s6_loop n) (Some (pfx ++ ":" ++ hex (s6_id n) ++ "::/64")%string) /\
    (forall e, In e errs <->
       (e = SNoLoopback (s6_name n) /\ s6_loop n = None) \/
       (e = SOverlap (s6_name n) /\ exists a len net, s6_loop n = Some (a, len) /\ locator_net pfx (s6_id n) = Some net /\ (64 <= len)%Z /\ within a net 4)).
Proof.
  intros pfx vs n G Z0. unfold srv6_node. pose proof (locator_exact pfx vs (s6_id n) G Z0) as LE. split.
  - rewrite LE. destruct (Z.ltb_spec (s6_id n) 65536) as [L|L]; [split; [discriminate|lia]|split; [intros _; exact L|reflexivity]].
  - intros n' errs H. clear LE. destruct (locator_net pfx (s6_id n)) as [net|]; [|discriminate H]. injection H as H1 H2. subst n' errs. split; [reflexivity|]. intros e.
    destruct (s6_loop n) as [[a len]|].
    + unfold subnet_of, within. destruct (Z.leb_spec 64 len) as [L|L]; cbn [andb].
      * pose proof (same_iff (firstn 4 a) (firstn 4 net)) as SI. destruct (same (firstn 4 a) (firstn 4 net)).
        -- split.
           ++ intros [H|[]]. right. split; [symmetry; exact H|]. exists a, len, net. split; [reflexivity|]. split; [reflexivity|]. split; [exact L|apply SI; reflexivity].
           ++ intros [[_ H]|[H _]]; [discriminate H|left; symmetry; exact H].
        -- split; [intros []|]. intros [[_ H]|[_ [a' [len' [net' [E1 [E2 [_ H]]]]]]]]; [discriminate H|]. injection E1 as E1 E3. injection E2 as E2. subst a' len' net'. apply SI in H. discriminate H.
      * split; [intros []|]. intros [[_ H]|[_ [a' [len' [net' [E1 [_ [H _]]]]]]]]; [discriminate H|]. injection E1 as E1 E3. subst. lia.
    + split.
      * intros [H|[]]. left. split; [symmetry; exact H|reflexivity].
      * intros [[H _]|[_ [a [len [net' [E _]]]]]]; [left; symmetry; exact H|discriminate E].
Qed.

(* Refuted: a loopback network that contains the locator is reported; a locator configured on a node is used;
   every node identifier gives a locator. *)
Theorem srv6_refuted :
  let pfx := "2001:db8:aaaa" in
  let n id a len := mk_s6 "r" id (Some (a, len)) (Some "fc00::/64") in
  srv6_node pfx (n 5%Z [8193; 3512; 43690; 1; 0; 0; 0; 1]%Z 48%Z) = Some (mk_s6 "r" 5 (Some ([8193; 3512; 43690; 1; 0; 0; 0; 1]%Z, 48%Z)) (Some "2001:db8:aaaa:5::/64"), []) /\
  locator_net pfx 5 = Some [8193; 3512; 43690; 5; 0; 0; 0; 0]%Z /\
  locator_net pfx 65536 = None.
Proof. repeat split; vm_compute; reflexivity. Qed.

Example x_good : good_prefix "2001:db8:aaaa" [8193; 3512; 43690]%Z.
Proof. split; [apply sequence_parts; reflexivity|cbn [length]; lia]. Qed.

Example x_srv6 : srv6_node "2001:db8:aaaa" (mk_s6 "r" 31 (Some ([8193; 3512; 43690; 31; 0; 0; 0; 1]%Z, 64%Z)) None) =
  Some (mk_s6 "r" 31 (Some ([8193; 3512; 43690; 31; 0; 0; 0; 1]%Z, 64%Z)) (Some "2001:db8:aaaa:1f::/64"), [SOverlap "r"]).
Proof. vm_compute. reflexivity. Qed.

Print Assumptions hex_exact.
Print Assumptions locator_exact.
Print Assumptions locators_disjoint.
Print Assumptions srv6_exact.
Print Assumptions srv6_refuted.
