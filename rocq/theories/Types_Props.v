(* Properties C29, C60, C61: data type validation. *)
From Coq Require Import String Ascii ZArith Lia Bool List Decimal DecimalString DecimalNat.
From Verif Require Import Base Box_Model Box_Props Dev_Model Dev_Props Mod_Model Mod_Props Text_Model Text_Props Types_Model.
Import ListNotations.
Open Scope Z_scope.

(* ---------- python strings and integers ---------- *)

(* decimal representation of a number *)
Definition dec (n : nat) : string := NilZero.string_of_uint (Nat.to_uint n).

Definition digits (s : string) : Prop := all_chars is_digit s = true.

Lemma all_chars_app : forall f a b, all_chars f (a ++ b) = all_chars f a && all_chars f b.
Proof. intros f. induction a as [|c a IH]; intros b; simpl; auto. rewrite IH, andb_assoc. auto. Qed.

Lemma all_chars_In : forall f s, all_chars f s = true <-> forall c, In c (list_ascii_of_string s) -> f c = true.
Proof.
  intros f. induction s as [|c s IH]; simpl.
  - split; [intros _ c []|auto].
  - rewrite andb_true_iff, IH. split.
    + intros [H1 H2] x [<-|K]; auto.
    + intros H. split; auto.
Qed.

Lemma uint_digits : forall d, digits (NilEmpty.string_of_uint d).
Proof. unfold digits. induction d; simpl; auto. Qed.

Lemma parse_uint : forall d acc,
  parse_digits true (Z.of_nat acc) (NilEmpty.string_of_uint d) = Some (Z.of_nat (Nat.of_uint_acc d acc)).
Proof.
  induction d; intros acc; [reflexivity|..];
    cbn [NilEmpty.string_of_uint Nat.of_uint_acc parse_digits];
    rewrite <- IHd; rewrite ?Nat.tail_mul_spec, ?Nat.tail_add_spec;
    match goal with |- context [is_digit ?c] => change (is_digit c) with true end; cbn match; f_equal;
    match goal with |- context [digit_val ?c] => let v := eval vm_compute in (digit_val c) in change (digit_val c) with v end; lia.
Qed.

Lemma dec_nonempty : forall n, dec n <> EmptyString.
Proof.
  intros n. unfold dec, NilZero.string_of_uint. destruct (Nat.to_uint n); simpl; discriminate.
Qed.

Lemma dec_digits : forall n, digits (dec n).
Proof.
  intros n. unfold dec, NilZero.string_of_uint. destruct (Nat.to_uint n) eqn:E; try (rewrite <- E; apply uint_digits). reflexivity.
Qed.

Lemma parse_dec : forall n, parse_digits false 0 (dec n) = Some (Z.of_nat n).
Proof.
  intros n. unfold dec. pose proof (Unsigned.of_to n) as O. unfold Nat.of_uint in O.
  unfold NilZero.string_of_uint. rewrite <- O at 2.
  destruct (Nat.to_uint n) as [|d|d|d|d|d|d|d|d|d|d]; [reflexivity|..];
    cbn [NilEmpty.string_of_uint Nat.of_uint_acc parse_digits];
    match goal with |- context [is_digit ?c] => change (is_digit c) with true end; cbn match;
    rewrite <- parse_uint; f_equal; rewrite ?Nat.tail_mul_spec, ?Nat.tail_add_spec;
    match goal with |- context [digit_val ?c] => let v := eval vm_compute in (digit_val c) in change (digit_val c) with v end; lia.
Qed.

Lemma digit_facts : forall c, is_digit c = true ->
  is_space c = false /\ c <> "-"%char /\ c <> "+"%char /\ c <> "."%char /\ c <> "/"%char /\ c <> ":"%char.
Proof.
  intros [[] [] [] [] [] [] [] []] H; vm_compute in H; try discriminate; repeat split; try discriminate.
Qed.

Lemma rstrip_keep : forall f s, (forall c, In c (list_ascii_of_string s) -> f c = false) -> rstrip f s = s.
Proof.
  intros f. induction s as [|c s IH]; intros H; cbn [rstrip]; auto.
  rewrite IH by (intros x K; apply H; right; auto). destruct s; auto. rewrite H; [auto|left; auto].
Qed.

Lemma lstrip_keep : forall f s, (forall c, In c (list_ascii_of_string s) -> f c = false) -> lstrip f s = s.
Proof. intros f [|c s] H; auto. apply lstrip_none. apply H. left. auto. Qed.

Lemma py_int_digits : forall s, digits s -> s <> EmptyString -> py_int s = parse_digits false 0 s.
Proof.
  intros s D N. unfold py_int.
  assert (S : forall c, In c (list_ascii_of_string s) -> is_space c = false).
  { intros c H. unfold digits in D. rewrite all_chars_In in D. apply digit_facts. auto. }
  rewrite lstrip_keep, rstrip_keep by auto. destruct s as [|c s]; [congruence|].
  unfold digits in D. cbn [all_chars] in D. apply andb_true_iff in D. destruct D as [D _].
  destruct c as [[] [] [] [] [] [] [] []]; vm_compute in D; try discriminate; reflexivity.
Qed.

(* int(str(n)) is n *)
Lemma py_int_dec : forall n, py_int (dec n) = Some (Z.of_nat n).
Proof. intros n. rewrite py_int_digits; [apply parse_dec|apply dec_digits|apply dec_nonempty]. Qed.

(* ---------- C29 ---------- *)

(* C29: an integer is accepted exactly when it is within the limits; *)
Theorem int_range_exact : forall lo hi n,
  must_be_int lo hi (VInt n) = Valid (VInt n) <->
  (forall l, lo = Some l -> l <= n) /\ (forall h, hi = Some h -> n <= h).
Proof.
  intros lo hi n. unfold must_be_int, check_int_type.
  destruct lo as [lo|], hi as [hi|]; split.
  - destruct (Z.ltb_spec n lo); [discriminate|]. rewrite Z.gtb_ltb. destruct (Z.ltb_spec hi n); [discriminate|].
    intros _. split; intros x E; injection E as <-; lia.
  - intros [H1 H2]. specialize (H1 lo eq_refl). specialize (H2 hi eq_refl).
    destruct (Z.ltb_spec n lo); [lia|]. rewrite Z.gtb_ltb. destruct (Z.ltb_spec hi n); [lia|]. reflexivity.
  - destruct (Z.ltb_spec n lo); [discriminate|]. intros _. split; intros x E; [injection E as <-; lia|discriminate].
  - intros [H1 H2]. specialize (H1 lo eq_refl). destruct (Z.ltb_spec n lo); [lia|]. reflexivity.
  - rewrite Z.gtb_ltb. destruct (Z.ltb_spec hi n); [discriminate|]. intros _. split; intros x E; [discriminate|injection E as <-; lia].
  - intros [H1 H2]. specialize (H2 hi eq_refl). rewrite Z.gtb_ltb. destruct (Z.ltb_spec hi n); [lia|]. reflexivity.
  - intros _. split; intros x E; discriminate.
  - reflexivity.
Qed.

(* ... the accepted value is always an integer, and never comes from a boolean, a list, a
   dictionary or null; *)
Theorem int_result_type : forall lo hi v w, must_be_int lo hi v = Valid w ->
  exists n, w = VInt n /\ (v = VInt n \/ exists s, v = VStr s /\ py_int s = Some n).
Proof.
  intros lo hi v w H. destruct v as [|b|n|s|l|d]; simpl in H; try discriminate.
  - exists n. assert (E : w = VInt n).
    { destruct lo, hi; simpl in H;
        repeat match type of H with (if ?c then _ else _) = _ => destruct c end; congruence. }
    auto.
  - destruct (py_int s) as [n|] eqn:E; [|discriminate]. injection H as <-. exists n. split; auto. right. eauto.
Qed.

(* ... a number written as a string is converted without checking the limits; *)
Theorem int_range_string_refuted : forall lo hi n,
  must_be_int lo hi (VStr (dec n)) = Valid (VInt (Z.of_nat n)).
Proof. intros lo hi n. simpl. rewrite py_int_dec. reflexivity. Qed.

Example int_case :
  must_be_int (Some 1) (Some 10) (VInt 10) = Valid (VInt 10) /\ must_be_int (Some 1) (Some 10) (VInt 11) = BadValue /\
  must_be_int (Some 1) (Some 10) (VStr "500") = Valid (VInt 500) /\ must_be_int None None (VStr " -1_0 ") = Valid (VInt (-10)) /\
  must_be_int None None (VStr "1__0") = BadType /\ must_be_int None None (VBool true) = BadValue.
Proof. repeat split; reflexivity. Qed.

(* ... an integer is accepted as an AS number exactly when it fits in 32 bits; *)
Theorem asn_int_exact : forall n,
  must_be_asn (VInt n) = Valid (VInt n) <-> 0 <= n < 2 ^ 32.
Proof.
  intros n. simpl. rewrite Z.gtb_ltb. change (Z.pow_pos 2 32) with 4294967296.
  destruct (Z.ltb_spec n 0), (Z.ltb_spec 4294967295 n); simpl; split; try discriminate; try lia; auto.
Qed.

(* ... including zero, which is not an AS number; *)
Theorem asn_zero_refuted : must_be_asn (VInt 0) = Valid (VInt 0) /\ must_be_asn2 (VInt 0) = Valid (VInt 0) /\
  must_be_asn (VStr "0") = BadValue /\ must_be_asn (VStr "0.0") = BadValue.
Proof. repeat split; reflexivity. Qed.

Lemma split_none : forall sep s, no_char sep s -> split sep s = [s].
Proof.
  intros sep. induction s as [|c s IH]; intros H; auto. apply no_char_cons in H. destruct H as [H1 H2].
  cbn [split]. rewrite (proj2 (Ascii.eqb_neq _ _) H1), IH; auto.
Qed.

Lemma split_app : forall sep a b, no_char sep a -> split sep (a ++ String sep b) = a :: split sep b.
Proof.
  intros sep. induction a as [|c a IH]; intros b H; cbn [append split].
  - rewrite Ascii.eqb_refl. auto.
  - apply no_char_cons in H. destruct H as [H1 H2]. rewrite (proj2 (Ascii.eqb_neq _ _) H1), IH; auto.
Qed.

Lemma split_inv : forall sep s, exists h t, split sep s = h :: t /\ no_char sep h /\
  (t = [] -> s = h) /\
  match t with [] => True | _ => exists r, s = (h ++ String sep r)%string /\ split sep r = t end.
Proof.
  intros sep. induction s as [|c s IH].
  - exists ""%string, []. repeat split; auto; intros [].
  - destruct IH as [h [t [E [N [S R]]]]]. cbn [split]. destruct (Ascii.eqb_spec c sep) as [->|D].
    + exists ""%string, (h :: t). rewrite E. split; auto. split; [intros []|]. split; [discriminate|].
      exists s. auto.
    + rewrite E. exists (String c h), t. split; auto. split; [apply no_char_cons; auto|]. split.
      * intros T. rewrite (S T). reflexivity.
      * destruct t; auto. destruct R as [r [R1 R2]]. exists r. split; auto. rewrite R1. reflexivity.
Qed.

Lemma digits_no : forall c s, is_digit c = false -> digits s -> no_char c s.
Proof.
  intros c s H D K. unfold digits in D. rewrite all_chars_In in D. apply D in K. congruence.
Qed.

(* an AS number in asdot notation *)
Definition asdot (a b : nat) : string := (dec a ++ String "." (dec b))%string.

(* ... N.M is accepted exactly when both halves fit in 16 bits and one of them is not zero,
   and stands for N*65536+M; *)
Theorem asdot_exact : forall a b,
  must_be_asn (VStr (asdot a b)) =
  if (Z.of_nat a <=? 65535) && (Z.of_nat b <=? 65535) && negb (Nat.eqb (a + b) 0)
  then Valid (VInt (Z.of_nat a * 65536 + Z.of_nat b)) else BadValue.
Proof.
  intros a b. simpl must_be_asn. unfold asdot_parsing, asdot.
  rewrite split_app by (apply digits_no; [reflexivity|apply dec_digits]).
  rewrite split_none by (apply digits_no; [reflexivity|apply dec_digits]).
  cbn [length Nat.ltb Nat.leb asdot_parts transform_asdot]. rewrite !py_int_dec.
  destruct (Z.ltb_spec (Z.of_nat a) 0); [lia|]. destruct (Z.ltb_spec (Z.of_nat b) 0); [lia|]. cbn [orb].
  rewrite !Z.gtb_ltb. destruct (Z.leb_spec (Z.of_nat a) 65535), (Z.ltb_spec 65535 (Z.of_nat a)); try lia; cbn [andb]; auto.
  destruct (Z.leb_spec (Z.of_nat b) 65535), (Z.ltb_spec 65535 (Z.of_nat b)); try lia; cbn [andb]; auto.
  change (2 ^ 32) with 4294967296. rewrite Z.geb_leb.
  destruct (Nat.eqb_spec (a + b) 0) as [Z0|Z0]; cbn [negb].
  - destruct (Z.leb_spec (65536 * (65536 * 0 + Z.of_nat a) + Z.of_nat b) 0); [reflexivity|lia].
  - destruct (Z.leb_spec (65536 * (65536 * 0 + Z.of_nat a) + Z.of_nat b) 0); [lia|].
    destruct (Z.leb_spec 4294967296 (65536 * (65536 * 0 + Z.of_nat a) + Z.of_nat b)); [lia|].
    cbn [orb]. do 2 f_equal. lia.
Qed.

(* ... different AS numbers in asdot notation stay different; *)
Theorem asdot_injective : forall a b a' b' n,
  must_be_asn (VStr (asdot a b)) = Valid n -> must_be_asn (VStr (asdot a' b')) = Valid n -> a = a' /\ b = b'.
Proof.
  intros a b a' b' n H H'. rewrite asdot_exact in H, H'.
  destruct (Z.leb_spec (Z.of_nat a) 65535), (Z.leb_spec (Z.of_nat b) 65535); cbn [andb] in H; try discriminate.
  destruct (Z.leb_spec (Z.of_nat a') 65535), (Z.leb_spec (Z.of_nat b') 65535); cbn [andb] in H'; try discriminate.
  destruct (Nat.eqb (a + b) 0); [discriminate|]. destruct (Nat.eqb (a' + b') 0); [discriminate|].
  simpl in H, H'. assert (E : Z.of_nat a * 65536 + Z.of_nat b = Z.of_nat a' * 65536 + Z.of_nat b') by congruence. lia.
Qed.

(* ... whatever is accepted is a number below 2^32; *)
Theorem asn_result_range : forall v w, must_be_asn v = Valid w -> exists n, w = VInt n /\ 0 <= n < 2 ^ 32.
Proof.
  intros v w H. destruct v as [|x|n|s|l|d]; try discriminate.
  - exists n. assert (E : w = VInt n) by (simpl in H; destruct ((n <? 0) || (n >? 4294967295)); congruence).
    subst w. split; auto. apply asn_int_exact. auto.
  - simpl in H. unfold asdot_parsing in H. destruct (2 <? length (split "." s))%nat; [discriminate|].
    assert (Q : forall parts acc x, asdot_parts acc parts = inr x -> transform_asdot acc parts = x).
    { clear. induction parts as [|p r IH]; intros acc x H; simpl in *; [congruence|].
      destruct (py_int p) as [n|]; [|discriminate]. destruct ((n <? 0) || (n >? 65535)); [discriminate|]. auto. }
    destruct (asdot_parts 0 (split "." s)) as [e|x] eqn:E.
    + subst e. exfalso. revert E. generalize 0 (split "." s). intros z l. revert z.
      induction l as [|p r IH]; intros z E; simpl in E; [discriminate|].
      destruct (py_int p); [|discriminate]. destruct ((z0 <? 0) || (z0 >? 65535)); [discriminate|]. eauto.
    + rewrite Z.geb_leb in H. destruct (Z.leb_spec x 0); [discriminate|]. destruct (Z.leb_spec (2 ^ 32) x); [discriminate|].
      simpl in H. injection H as <-. exists x. rewrite (Q _ _ _ E). split; [auto|lia].
Qed.

(* ... a plain number in a string is accepted only up to 65535, the same number as an integer
   up to 2^32-1. *)
Theorem asn_string_exact : forall n,
  must_be_asn (VStr (dec n)) =
  if (1 <=? Z.of_nat n) && (Z.of_nat n <=? 65535) then Valid (VInt (Z.of_nat n)) else BadValue.
Proof.
  intros n. simpl must_be_asn. unfold asdot_parsing.
  rewrite split_none by (apply digits_no; [reflexivity|apply dec_digits]).
  cbn [length Nat.ltb Nat.leb asdot_parts transform_asdot]. rewrite !py_int_dec.
  destruct (Z.ltb_spec (Z.of_nat n) 0); [lia|]. cbn [orb]. rewrite Z.gtb_ltb.
  destruct (Z.leb_spec (Z.of_nat n) 65535), (Z.ltb_spec 65535 (Z.of_nat n)); try lia.
  2: { rewrite andb_false_r. auto. }
  change (2 ^ 32) with 4294967296. rewrite Z.geb_leb.
  destruct (Z.leb_spec 1 (Z.of_nat n)), (Z.leb_spec (65536 * 0 + Z.of_nat n) 0); try lia; cbn [andb orb]; auto.
  destruct (Z.leb_spec 4294967296 (65536 * 0 + Z.of_nat n)); [lia|]. auto.
Qed.

Theorem asn_string_refuted :
  must_be_asn (VInt 70000) = Valid (VInt 70000) /\ must_be_asn (VStr "70000") = BadValue.
Proof. split; reflexivity. Qed.

Example asdot_case :
  must_be_asn (VStr "1.10") = Valid (VInt 65546) /\ must_be_asn (VStr "65535.65535") = Valid (VInt 4294967295) /\
  must_be_asn (VStr "1.65536") = BadValue /\ must_be_asn (VStr "1.2.3") = BadType /\ must_be_asn (VStr "1.") = BadType /\
  must_be_asn (VInt 4294967296) = BadValue /\ must_be_asn (VInt (-1)) = BadValue.
Proof. repeat split; reflexivity. Qed.

(* ---------- C60: identifiers, NET, RD, lists and the validation wrapper ---------- *)

Definition id_start (c : ascii) : bool := is_lower c || is_upper c || Ascii.eqb c "_".
Definition id_char (c : ascii) : bool := id_start c || is_digit c || Ascii.eqb c "-".

Lemma id_start_spec : forall c, is_word c && negb (is_digit c) = id_start c.
Proof. intros [[] [] [] [] [] [] [] []]; reflexivity. Qed.

Lemma id_char_spec : forall c, is_word c || Ascii.eqb c "-" = id_char c.
Proof. intros [[] [] [] [] [] [] [] []]; reflexivity. Qed.

(* an identifier starts with a letter or an underscore, continues with letters, digits,
   underscores and dashes and has at most max_length characters *)
Theorem id_exact : forall n s, (1 <= n)%nat ->
  (must_be_id n (VStr s) = Valid (VStr s) <->
   exists c r, s = String c r /\ id_start c = true /\
     (forall x, In x (list_ascii_of_string r) -> id_char x = true) /\ (String.length s <= n)%nat).
Proof.
  intros n s Hn. destruct s as [|c r]; simpl must_be_id.
  - split; [discriminate|]. intros [c [r [E _]]]. discriminate.
  - rewrite id_start_spec.
    assert (A : all_chars (fun x => is_word x || Ascii.eqb x "-") r = true <-> forall x, In x (list_ascii_of_string r) -> id_char x = true).
    { rewrite all_chars_In. split; intros H x K; [rewrite <- id_char_spec|rewrite id_char_spec]; auto. }
    destruct (id_start c) eqn:S; cbn [andb].
    + destruct (all_chars (fun x => is_word x || Ascii.eqb x "-") r) eqn:R; cbn [andb].
      * destruct (Nat.leb_spec (String.length r) (n - 1)).
        -- split; auto. intros _. exists c, r. split; auto. split; auto. split; [apply A; auto|]. simpl. lia.
        -- split; [discriminate|]. intros [c' [r' [E [_ [_ L]]]]]. simpl in L. lia.
      * split; [discriminate|]. intros [c' [r' [E [_ [K _]]]]]. injection E as <- <-. apply A in K. congruence.
    + split; [discriminate|]. intros [c' [r' [E [K _]]]]. injection E as <- <-. congruence.
Qed.

(* scalars become one-element lists, other values are rejected unless conversion is forced *)
Theorem list_exact : forall v l, must_be_list false v = Valid l <->
  (v = l /\ exists x, v = VList x) \/ (l = VList [v] /\ ((exists s, v = VStr s) \/ (exists n, v = VInt n) \/ (exists b, v = VBool b))).
Proof.
  intros v l. destruct v; simpl; split; intros H; try discriminate;
    try (injection H as <-; eauto 7; fail);
    destruct H as [[E [x Ex]]|[E [[? Es]|[[? En]|[? Eb]]]]]; try discriminate; try congruence.
Qed.

(* an RD/RT in a string is accepted exactly when it has two parts, the second one an integer and
   the first one an integer or an IPv4 address; *)
Theorem rd_exact : forall s, must_be_rd (VStr s) = Valid (VStr s) <->
  exists t i n, s = (t ++ String ":" i)%string /\ no_char ":" t /\ no_char ":" i /\ py_int i = Some n /\
    ((exists a, py_int t = Some a) \/ (exists a, parse_ipv4 t = Some a)).
Proof.
  intros s. simpl. split.
  - destruct (split_inv ":" s) as [h [t [E [N [S R]]]]]. rewrite E. destruct t as [|i [|x t]]; try discriminate.
    destruct R as [r [R1 R2]]. destruct (split_inv ":" r) as [h' [t' [E' [N' [S' _]]]]]. rewrite R2 in E'.
    injection E' as <- <-. specialize (S' eq_refl). subst r. destruct (py_int i) as [n|] eqn:Pi; [|discriminate]. intros H.
    exists h, i, n. repeat split; auto.
    destruct (py_int h); eauto. destruct (parse_ipv4 h); eauto. discriminate.
  - intros [t [i [n [-> [N1 [N2 [Pi H]]]]]]]. rewrite split_app, split_none by auto. rewrite Pi.
    destruct (py_int t); auto. destruct H as [[a C]|[a ->]]; [discriminate|]. auto.
Qed.

(* ... no limits are checked: *)
Theorem rd_range_refuted : must_be_rd (VStr "-1:-1") = Valid (VStr "-1:-1") /\
  must_be_rd (VStr "99999999999:99999999999") = Valid (VStr "99999999999:99999999999") /\
  must_be_rd (VBool true) = Valid (VBool true).
Proof. repeat split; reflexivity. Qed.

(* a NET contains hexadecimal digits and dots, and an even number of digits *)
Theorem net_exact : forall s, must_be_net (VStr s) = Valid (VStr s) <->
  s <> EmptyString /\ (forall c, In c (list_ascii_of_string s) -> is_hex c = true \/ c = "."%char) /\
  Nat.Even (count_occ ascii_dec (map (fun c => if ascii_dec c "." then "." else "0")%char (list_ascii_of_string s)) "0"%char).
Proof.
  intros s.
  assert (C : count_occ ascii_dec (map (fun c => if ascii_dec c "." then "." else "0")%char (list_ascii_of_string s)) "0"%char =
              count_chars (fun c => negb (Ascii.eqb c ".")) s).
  { induction s as [|c s IH]; auto. cbn [list_ascii_of_string map count_occ count_chars].
    destruct (ascii_dec c "."); destruct (Ascii.eqb_spec c "."); try congruence; cbn [negb].
    - destruct (ascii_dec "." "0"); [discriminate|auto].
    - destruct (ascii_dec "0" "0"); [f_equal; auto|congruence]. }
  rewrite C.
  assert (A : all_chars (fun c => is_hex c || Ascii.eqb c ".") s = true <->
              forall c, In c (list_ascii_of_string s) -> is_hex c = true \/ c = "."%char).
  { rewrite all_chars_In. split; intros H c K; specialize (H c K).
    - apply orb_true_iff in H. destruct H as [H|H]; auto. apply Ascii.eqb_eq in H. auto.
    - apply orb_true_iff. destruct H as [H|H]; auto. right. apply Ascii.eqb_eq. auto. }
  rewrite <- A. simpl must_be_net. destruct s as [|c s]; [split; [discriminate|intros [H _]; congruence]|].
  destruct (all_chars (fun c0 => is_hex c0 || Ascii.eqb c0 ".") (String c s)).
  - rewrite <- Nat.even_spec. destruct (Nat.even _); split; intros H; try discriminate; auto.
    + repeat split; auto; discriminate.
    + destruct H as [_ [_ H]]. discriminate.
  - split; [discriminate|]. intros [_ [H _]]. discriminate.
Qed.

Lemma get_value_other : forall o key parent k, k <> key ->
  dget k (snd (get_value_to_check o key parent)) = dget k parent.
Proof.
  intros o key parent k N. unfold get_value_to_check.
  destruct (get_value key parent) as [v|].
  - destruct v as [|[]| | | |]; try reflexivity; destruct (t_true o); try reflexivity; simpl.
    + apply dget_dset_other. auto.
    + destruct (t_false o); simpl; [apply dget_dset_other|apply dget_dpop_other]; auto.
  - destruct (t_empty o) as [e|]; [|reflexivity].
    destruct (match t_create o with Some b => b | None => true end); [|reflexivity].
    assert (Q : dget k (dset key e parent) = dget k parent) by (apply dget_dset_other; auto).
    destruct e as [|[]| | | |]; simpl; auto; destruct (t_true o); simpl; auto.
    + rewrite dget_dset_other; auto.
    + destruct (t_false o); simpl; [rewrite dget_dset_other|rewrite dget_dpop_other]; auto.
Qed.

(* C60: validation of an attribute never touches other attributes; *)
Theorem type_test_frame : forall test o key parent k, k <> key ->
  dget k (fst (type_test test o key parent)) = dget k parent.
Proof.
  intros test o key parent k N. unfold type_test.
  pose proof (get_value_other o key parent k N) as G. destruct (get_value_to_check o key parent) as [v p]. simpl in G.
  destruct (negb (dmem key p)); [auto|].
  destruct (test _) as [w| |]; auto.
  assert (Q : dget k (dset key w p) = dget k parent) by (rewrite dget_dset_other; auto).
  destruct (t_values o); auto. destruct (check_valid_values (v0 :: l) w); auto.
Qed.

(* ... when it reports no error, the attribute is either not set or has a value the validator
   returned, and all the values are among the valid ones; *)
Theorem type_test_sound : forall test o key parent p' v, type_test test o key parent = (p', []) ->
  dget key p' = Some v ->
  (exists x, test x = Valid v) /\
  (t_values o <> [] -> match v with
                       | VList l => forall x, In x l -> exists y, In y (t_values o) /\ val_eqb x y = true
                       | _ => exists y, In y (t_values o) /\ val_eqb v y = true
                       end).
Proof.
  intros test o key parent p' v H G. unfold type_test in H.
  destruct (get_value_to_check o key parent) as [x p]. destruct (dmem key p) eqn:M; simpl in H.
  - destruct (test (match x with Some v => v | None => VNull end)) as [w| |] eqn:T; try discriminate.
    destruct (t_values o) as [|y l] eqn:V.
    + injection H as <-. rewrite dget_dset_same in G. injection G as <-. split; eauto. congruence.
    + destruct (check_valid_values (y :: l) w) eqn:C; [|discriminate]. injection H as <-.
      rewrite dget_dset_same in G. injection G as <-. split; eauto. intros _.
      unfold check_valid_values in C. destruct w; try (apply existsb_exists in C; auto; fail).
      intros z Hz. rewrite forallb_forall in C. specialize (C z Hz). apply existsb_exists in C. auto.
  - injection H as <-. unfold dmem in M. rewrite G in M. discriminate.
Qed.

Lemma get_value_present : forall o key parent v, dget key parent = Some v -> v <> VNull ->
  (t_true o = None \/ forall b, v <> VBool b) -> get_value_to_check o key parent = (Some v, parent).
Proof.
  intros o key parent v G N B. unfold get_value_to_check, get_value. rewrite G.
  destruct v as [|b| | | |]; try congruence; try reflexivity.
  destruct B as [-> | B]; [destruct b; reflexivity|]. exfalso. exact (B b eq_refl).
Qed.

(* ... an attribute with a value the validator accepts (and no boolean to replace) is set to
   the transformed value, a value it rejects stays and is reported; *)
Theorem type_test_decides : forall test o key parent v, dget key parent = Some v -> v <> VNull ->
  (t_true o = None \/ forall b, v <> VBool b) -> t_values o = [] ->
  match test v with
  | Valid w => type_test test o key parent = (dset key w parent, [])
  | BadType => type_test test o key parent = (parent, [WrongType])
  | BadValue => type_test test o key parent = (parent, [WrongValue])
  end.
Proof.
  intros test o key parent v G N B V. unfold type_test. rewrite (get_value_present o key parent v G N B).
  unfold dmem. rewrite G. cbn [negb]. rewrite V. destruct (test v); reflexivity.
Qed.

(* ... an attribute that is not set stays that way unless the type has an empty value; *)
Theorem type_test_missing : forall test o key parent, dget key parent = None -> t_empty o = None ->
  type_test test o key parent = (parent, []).
Proof.
  intros test o key parent G E. unfold type_test, get_value_to_check, get_value. rewrite G, E.
  unfold dmem. rewrite G. reflexivity.
Qed.

(* ... and validating twice changes nothing when the validator accepts its own results. *)
Theorem type_test_idempotent : forall test o key parent p' v,
  (forall x w, test x = Valid w -> test w = Valid w) -> t_true o = None ->
  type_test test o key parent = (p', []) -> dget key p' = Some v -> v <> VNull ->
  type_test test o key p' = (p', []).
Proof.
  intros test o key parent p' v I T H G N. destruct (type_test_sound _ _ _ _ _ _ H G) as [[x Tx] Vv].
  apply I in Tx. unfold type_test. rewrite (get_value_present o key p' v G N (or_introl T)).
  assert (D : dset key v p' = p').
  { clear - G. induction p' as [|[k w] r IH]; simpl in *; [discriminate|].
    destruct (String.eqb_spec key k) as [->|]; [congruence|]. f_equal. auto. }
  unfold dmem. rewrite G. cbn [negb]. rewrite Tx, D. destruct (t_values o) as [|y l] eqn:V; [reflexivity|].
  specialize (Vv ltac:(discriminate)).
  assert (C : check_valid_values (y :: l) v = true).
  { unfold check_valid_values. destruct v; try (apply existsb_exists; auto; fail).
    apply forallb_forall. intros z Hz. apply existsb_exists. auto. }
  rewrite C. auto.
Qed.

(* the validators for which this holds *)
Theorem validators_stable : forall n use x w,
  (must_be_str x = Valid w -> must_be_str w = Valid w) /\
  (must_be_dict x = Valid w -> must_be_dict w = Valid w) /\
  (must_be_list false x = Valid w -> must_be_list false w = Valid w) /\
  (must_be_bool x = Valid w -> must_be_bool w = Valid w) /\
  (must_be_asn x = Valid w -> must_be_asn w = Valid w) /\
  (must_be_id n x = Valid w -> must_be_id n w = Valid w) /\
  (must_be_int None None x = Valid w -> must_be_int None None w = Valid w) /\
  (use <> Id -> must_be_ipv4 use x = Valid w -> must_be_ipv4 use w = Valid w).
Proof.
  intros n use x w. repeat split; intros H.
  - destruct x; try discriminate. injection H as <-. reflexivity.
  - unfold must_be_dict in *. destruct (is_dict x) eqn:D; [|discriminate]. injection H as <-. rewrite D. auto.
  - destruct x; simpl in H; try discriminate; injection H as <-; reflexivity.
  - destruct x; simpl in H; try discriminate; [injection H as <-; reflexivity|].
    destruct (String.eqb s "True" || String.eqb s "true"); [injection H as <-; reflexivity|].
    destruct (String.eqb s "False" || String.eqb s "false"); [injection H as <-; reflexivity|discriminate].
  - destruct (asn_result_range _ _ H) as [k [-> R]]. apply asn_int_exact. auto.
  - assert (E : x = w). { destruct x as [| | |[|c r]| |]; simpl in H; try discriminate.
      match type of H with (if ?c then _ else _) = _ => destruct c end; congruence. }
    congruence.
  - destruct (int_result_type _ _ _ _ H) as [k [-> _]]. reflexivity.
  - intros H0. assert (E : x = w).
    { destruct x as [|b|k|s|l|d]; try discriminate.
      - destruct use; simpl in H0; congruence.
      - destruct use; simpl in H0; try congruence; match type of H0 with (if ?c then _ else _) = _ => destruct c end; congruence.
      - cbv beta iota delta [must_be_ipv4] in H0. cbn zeta in H0.
        match type of H0 with (if ?c then _ else _) = _ => destruct c end;
          match type of H0 with (match ?c with _ => _ end) = _ => destruct c end; congruence. }
    congruence.
Qed.

(* ... but a number in a string that exceeds the limits passes the first validation and fails
   the second one. *)
Theorem int_stable_refuted : exists lo hi x w, must_be_int lo hi x = Valid w /\ must_be_int lo hi w = BadValue.
Proof. exists (Some 1), (Some 10), (VStr "11"), (VInt 11). split; reflexivity. Qed.

Example type_test_case :
  let o := mk_topts (Some (VList [])) (Some (VList [])) None None [VStr "a"; VStr "b"]%string in
  type_test (must_be_list false) o "x" [("y", VInt 1)]%string = ([("y", VInt 1); ("x", VList [])]%string, []) /\
  type_test (must_be_list false) o "x" [("x", VStr "a"); ("y", VInt 1)]%string = ([("x", VList [VStr "a"]); ("y", VInt 1)]%string, []) /\
  type_test (must_be_list false) o "x" [("x", VList [VStr "a"; VStr "c"])]%string = ([("x", VList [VStr "a"; VStr "c"])]%string, [InvalidValue]) /\
  type_test (must_be_list false) o "x" [("x", VDict [])]%string = ([("x", VDict [])]%string, [WrongType]).
Proof. repeat split; reflexivity. Qed.

(* ---------- C61: IPv4 addresses ---------- *)

Definition all_digits : list Z := map Z.of_nat (seq 0 10).

Lemma digit_enum : forall c, is_digit c = true -> exists k, In k all_digits /\ c = digit_char k.
Proof.
  intros [[] [] [] [] [] [] [] []] H; vm_compute in H; try discriminate;
    match goal with |- exists k, In k all_digits /\ ?c = _ =>
      let v := eval vm_compute in (digit_val c) in exists v; split; [vm_compute; tauto|reflexivity] end.
Qed.

Lemma octet_forward :
  forallb (fun n => match parse_octet (octet_str n) with Some m => m =? n | None => false end &&
                    negb (existsb (Ascii.eqb ".") (list_ascii_of_string (octet_str n))))
          (map Z.of_nat (seq 0 256)) = true.
Proof. vm_compute. reflexivity. Qed.

Lemma in_range : forall n m, 0 <= n < Z.of_nat m -> In n (map Z.of_nat (seq 0 m)).
Proof.
  intros n m H. apply in_map_iff. exists (Z.to_nat n). split; [lia|]. apply in_seq. lia.
Qed.

Lemma parse_octet_str : forall n, 0 <= n <= 255 -> parse_octet (octet_str n) = Some n /\ no_char "." (octet_str n).
Proof.
  intros n H. pose proof octet_forward as F. rewrite forallb_forall in F.
  specialize (F n (in_range n 256 ltac:(lia))). apply andb_true_iff in F. destruct F as [F1 F2]. split.
  - destruct (parse_octet (octet_str n)) as [m|]; [|discriminate]. apply Z.eqb_eq in F1. congruence.
  - intros K. apply negb_true_iff in F2. assert (T : existsb (Ascii.eqb ".") (list_ascii_of_string (octet_str n)) = true).
    { apply existsb_exists. exists "."%char. split; auto. }
    congruence.
Qed.

Definition octet_ok (s : string) : bool :=
  match parse_octet s with Some n => String.eqb s (octet_str n) && (0 <=? n) && (n <=? 255) | None => true end.

Lemma octet_back :
  forallb (fun a => octet_ok (String (digit_char a) "") &&
    forallb (fun b => octet_ok (String (digit_char a) (String (digit_char b) "")) &&
      forallb (fun c => octet_ok (String (digit_char a) (String (digit_char b) (String (digit_char c) ""))))
        all_digits) all_digits) all_digits = true.
Proof. vm_compute. reflexivity. Qed.

Lemma parse_octet_iff : forall s n, parse_octet s = Some n <-> s = octet_str n /\ 0 <= n <= 255.
Proof.
  intros s n. split; [|intros [-> H]; apply parse_octet_str; auto].
  intros H.
  assert (O : octet_ok s = true).
  { assert (D : all_chars is_digit s = true /\ (String.length s <= 3)%nat /\ s <> EmptyString).
    { unfold parse_octet in H. destruct s as [|c r]; [discriminate|].
      destruct (all_chars is_digit (String c r)) eqn:A; [|discriminate].
      destruct (Nat.ltb_spec 3 (String.length (String c r))); [discriminate|]. repeat split; [lia|discriminate]. }
    destruct D as [D [L N]]. pose proof octet_back as B. rewrite forallb_forall in B.
    destruct s as [|a [|b [|c [|x s]]]]; try congruence; cbn [all_chars] in D; simpl in L; try lia.
    - apply andb_true_iff in D. destruct D as [Da _]. destruct (digit_enum a Da) as [ka [Ka ->]].
      specialize (B ka Ka). apply andb_true_iff in B. apply B.
    - apply andb_true_iff in D. destruct D as [Da D]. apply andb_true_iff in D. destruct D as [Db _].
      destruct (digit_enum a Da) as [ka [Ka ->]]. destruct (digit_enum b Db) as [kb [Kb ->]].
      specialize (B ka Ka). apply andb_true_iff in B. destruct B as [_ B]. rewrite forallb_forall in B.
      specialize (B kb Kb). apply andb_true_iff in B. apply B.
    - apply andb_true_iff in D. destruct D as [Da D]. apply andb_true_iff in D. destruct D as [Db D].
      apply andb_true_iff in D. destruct D as [Dc _].
      destruct (digit_enum a Da) as [ka [Ka ->]]. destruct (digit_enum b Db) as [kb [Kb ->]]. destruct (digit_enum c Dc) as [kc [Kc ->]].
      specialize (B ka Ka). apply andb_true_iff in B. destruct B as [_ B]. rewrite forallb_forall in B.
      specialize (B kb Kb). apply andb_true_iff in B. destruct B as [_ B]. rewrite forallb_forall in B. exact (B kc Kc). }
  unfold octet_ok in O. rewrite H in O. apply andb_true_iff in O. destruct O as [O O3]. apply andb_true_iff in O.
  destruct O as [O1 O2]. apply String.eqb_eq in O1. split; auto. lia.
Qed.

Lemma split4 : forall a b c d, no_char "." a -> no_char "." b -> no_char "." c -> no_char "." d ->
  split "." (a ++ "." ++ b ++ "." ++ c ++ "." ++ d) = [a; b; c; d].
Proof.
  intros a b c d Na Nb Nc Nd. change ("." ++ b ++ "." ++ c ++ "." ++ d)%string with (String "." (b ++ "." ++ c ++ "." ++ d)).
  rewrite split_app by auto. change ("." ++ c ++ "." ++ d)%string with (String "." (c ++ "." ++ d)).
  rewrite split_app by auto. change ("." ++ d)%string with (String "." d). rewrite split_app, split_none by auto. auto.
Qed.

Lemma split_four : forall s a b c d, split "." s = [a; b; c; d] -> s = (a ++ "." ++ b ++ "." ++ c ++ "." ++ d)%string.
Proof.
  intros s a b c d E. destruct (split_inv "." s) as [h [t [E1 [_ [_ R]]]]]. rewrite E in E1. injection E1 as <- <-.
  destruct R as [r [-> R]]. destruct (split_inv "." r) as [h [t [E1 [_ [_ R']]]]]. rewrite R in E1. injection E1 as <- <-.
  destruct R' as [r' [-> R']]. destruct (split_inv "." r') as [h [t [E1 [_ [_ R'']]]]]. rewrite R' in E1. injection E1 as <- <-.
  destruct R'' as [r'' [-> R'']]. destruct (split_inv "." r'') as [h [t [E1 [_ [S _]]]]]. rewrite R'' in E1. injection E1 as <- <-.
  rewrite (S eq_refl). reflexivity.
Qed.

(* a 32-bit number is written in exactly one way *)
Lemma parse_ipv4_iff : forall s n, parse_ipv4 s = Some n <-> s = ipv4_str n /\ 0 <= n < 2 ^ 32.
Proof.
  intros s n. split.
  - unfold parse_ipv4. destruct (split "." s) as [|a [|b [|c [|d [|x l]]]]] eqn:E; try discriminate.
    apply split_four in E.
    destruct (parse_octet a) as [va|] eqn:Ea; [|discriminate]. destruct (parse_octet b) as [vb|] eqn:Eb; [|discriminate].
    destruct (parse_octet c) as [vc|] eqn:Ec; [|discriminate]. destruct (parse_octet d) as [vd|] eqn:Ed; [|discriminate].
    intros H. injection H as <-. apply parse_octet_iff in Ea, Eb, Ec, Ed.
    destruct Ea as [-> Ra], Eb as [-> Rb], Ec as [-> Rc], Ed as [-> Rd].
    set (n := ((va * 256 + vb) * 256 + vc) * 256 + vd).
    assert (Q1 : n / 16777216 = va) by (unfold n; symmetry; apply (Z.div_unique _ _ _ (vb * 65536 + vc * 256 + vd)); lia).
    assert (Q2 : n / 65536 = va * 256 + vb) by (unfold n; symmetry; apply (Z.div_unique _ _ _ (vc * 256 + vd)); lia).
    assert (Q3 : n / 256 = (va * 256 + vb) * 256 + vc) by (unfold n; symmetry; apply (Z.div_unique _ _ _ vd); lia).
    assert (M2 : (va * 256 + vb) mod 256 = vb) by (symmetry; apply (Z.mod_unique _ _ va); lia).
    assert (M3 : ((va * 256 + vb) * 256 + vc) mod 256 = vc) by (symmetry; apply (Z.mod_unique _ _ (va * 256 + vb)); lia).
    assert (M4 : n mod 256 = vd) by (unfold n; symmetry; apply (Z.mod_unique _ _ ((va * 256 + vb) * 256 + vc)); lia).
    split; [unfold ipv4_str; rewrite Q1, Q2, Q3, M2, M3, M4; exact E|]. unfold n. lia.
  - intros [-> R]. unfold parse_ipv4, ipv4_str.
    assert (R1 : 0 <= n / 16777216 <= 255) by (split; [apply Z.div_pos; lia|]; assert (n / 16777216 < 256) by (apply Z.div_lt_upper_bound; lia); lia).
    assert (R2 : 0 <= n / 65536 mod 256 <= 255) by (pose proof (Z.mod_pos_bound (n / 65536) 256); lia).
    assert (R3 : 0 <= n / 256 mod 256 <= 255) by (pose proof (Z.mod_pos_bound (n / 256) 256); lia).
    assert (R4 : 0 <= n mod 256 <= 255) by (pose proof (Z.mod_pos_bound n 256); lia).
    rewrite split4 by (apply parse_octet_str; auto).
    rewrite !(fun n H => proj1 (parse_octet_str n H)) by auto. f_equal.
    assert (A1 : n = 256 * (n / 256) + n mod 256) by (apply Z.div_mod; lia).
    assert (A2 : n / 256 = 256 * (n / 256 / 256) + n / 256 mod 256) by (apply Z.div_mod; lia).
    assert (A3 : n / 65536 = 256 * (n / 65536 / 256) + n / 65536 mod 256) by (apply Z.div_mod; lia).
    rewrite Z.div_div in A2, A3 by lia. change (256 * 256) with 65536 in A2. change (65536 * 256) with 16777216 in A3. lia.
Qed.

(* C61: the canonical dotted notation of a 32-bit number is the only accepted IPv4 address; *)
Theorem ipv4_address_exact : forall s,
  must_be_ipv4 Address (VStr s) = Valid (VStr s) <-> exists n, 0 <= n < 2 ^ 32 /\ s = ipv4_str n.
Proof.
  intros s. cbv beta iota delta [must_be_ipv4]. cbn zeta. destruct (parse_ipv4 s) as [n|] eqn:E.
  - apply parse_ipv4_iff in E. split; auto. intros _. exists n. tauto.
  - split; [discriminate|]. intros [n [R ->]]. rewrite (proj2 (parse_ipv4_iff _ n)) in E; [discriminate|auto].
Qed.

(* ... two different strings are never the same address; *)
Theorem ipv4_unique : forall s s' n, parse_ipv4 s = Some n -> parse_ipv4 s' = Some n -> s = s'.
Proof. intros s s' n H H'. apply parse_ipv4_iff in H, H'. destruct H as [-> _], H' as [-> _]. auto. Qed.

(* ... an identifier given as an integer is turned into the address with that number; *)
Theorem ipv4_id_converted : forall n,
  (0 <= n < 2 ^ 32 -> exists s, must_be_ipv4 Id (VInt n) = Valid (VStr s) /\ parse_ipv4 s = Some n) /\
  (~ 0 <= n < 2 ^ 32 -> must_be_ipv4 Id (VInt n) = BadValue).
Proof.
  intros n. cbv beta iota delta [must_be_ipv4]. rewrite Z.gtb_ltb. split.
  - intros R. destruct (Z.ltb_spec n 0); [lia|]. destruct (Z.ltb_spec (2 ^ 32 - 1) n); [lia|].
    exists (ipv4_str n). split; auto. apply parse_ipv4_iff. auto.
  - intros R. destruct (Z.ltb_spec n 0); auto. destruct (Z.ltb_spec (2 ^ 32 - 1) n); auto. lia.
Qed.

(* ... which value types are accepted depends on the use as documented: booleans on interfaces
   and subnets, integers as interface offsets and identifiers, nothing but scalars; *)
Theorem ipv4_use_table : forall use v w, must_be_ipv4 use v = Valid w ->
  match v with
  | VBool _ => use = Interface \/ use = SubnetPrefix
  | VInt n => (use = Interface \/ use = Id) /\ 0 <= n < 2 ^ 32
  | VStr _ => True
  | _ => False
  end.
Proof.
  intros use v w H. destruct v as [|b|n|s|l|d]; simpl in H; try discriminate; auto.
  - destruct use; try discriminate; auto.
  - rewrite Z.gtb_ltb in H. change (Z.pow_pos 2 32 - 1) with 4294967295 in H. change (2 ^ 32) with 4294967296.
    destruct use; try discriminate; destruct (Z.ltb_spec n 0); try discriminate;
      destruct (Z.ltb_spec 4294967295 n); try discriminate; split; auto; lia.
Qed.

(* ... a prefix of a subnet or a prefix list has all host bits zero. *)
Theorem ipv4_prefix_strict : forall use s w, use = Prefix \/ use = SubnetPrefix ->
  must_be_ipv4 use (VStr s) = Valid w ->
  exists n len, 0 <= n < 2 ^ 32 /\ 0 <= len <= 32 /\ n mod 2 ^ (32 - len) = 0 /\
    (s = ipv4_str n /\ len = 32 \/ exists l, s = (ipv4_str n ++ String "/" l)%string /\ parse_plen l = Some len).
Proof.
  intros use s w U H.
  assert (E : exists p, parse_ipv4_net true s = Some p).
  { destruct U as [-> | ->]; cbv beta iota delta [must_be_ipv4] in H; cbn zeta in H;
      destruct (parse_ipv4_net true s); eauto; discriminate. }
  destruct E as [p E]. unfold parse_ipv4_net in E. cbn zeta in E.
  assert (Pl : forall l k, parse_plen l = Some k -> 0 <= k <= 32).
  { intros l k. unfold parse_plen. destruct l as [|c r]; [discriminate|].
    destruct (all_chars is_digit (String c r)) eqn:D; [|discriminate].
    destruct (parse_digits false 0 (String c r)) as [m|] eqn:P; [|discriminate].
    rewrite Z.gtb_ltb. destruct (Z.ltb_spec 32 m); [discriminate|]. intros K. injection K as <-. split; [|lia].
    assert (Q : forall s dig acc m, 0 <= acc -> all_chars is_digit s = true -> parse_digits dig acc s = Some m -> 0 <= m).
    { clear. induction s as [|c s IH]; intros dig acc m A D P; cbn [parse_digits] in P.
      - destruct dig; [|discriminate]. congruence.
      - cbn [all_chars] in D. apply andb_true_iff in D. destruct D as [D1 D2]. rewrite D1 in P.
        eapply IH; [|exact D2|exact P]. assert (0 <= digit_val c); [|lia].
        destruct (digit_enum c D1) as [k [K ->]]. vm_compute in K.
        repeat (destruct K as [<-|K]; [vm_compute; discriminate|]). contradiction. }
    eapply Q; [|exact D|exact P]. lia. }
  assert (Z0 : forall x k, 0 <= x < 2 ^ 32 -> 0 <= k <= 32 ->
    (if true && negb (x - x mod 2 ^ (32 - k) =? x) then None else Some (x - x mod 2 ^ (32 - k), k)) = Some p ->
    x mod 2 ^ (32 - k) = 0).
  { intros x k _ _ K. cbn [andb] in K. destruct (Z.eqb_spec (x - x mod 2 ^ (32 - k)) x); [lia|discriminate]. }
  destruct (split_inv "/" s) as [h [t [E1 [N [S R]]]]]. rewrite E1 in E. destruct t as [|l [|y t]]; [| |discriminate].
  - destruct (parse_ipv4 h) as [x|] eqn:P; [|discriminate]. apply parse_ipv4_iff in P. destruct P as [-> Rx].
    exists x, 32. specialize (S eq_refl). split; auto. split; [lia|]. split; [change (2 ^ (32 - 32)) with 1; apply Z.mod_1_r|]. left. auto.
  - destruct (parse_ipv4 h) as [x|] eqn:P; [|discriminate]. apply parse_ipv4_iff in P. destruct P as [-> Rx].
    destruct (parse_plen l) as [k|] eqn:Pk; [|discriminate]. pose proof (Pl _ _ Pk) as Rk.
    exists x, k. split; auto. split; auto. split; [apply Z0; auto|]. right. exists l. split; auto.
    destruct R as [r [R1 R2]]. destruct (split_inv "/" r) as [h [t [E2 [_ [S2 _]]]]]. rewrite R2 in E2. injection E2 as <- <-.
    rewrite (S2 eq_refl) in R1. auto.
Qed.

Example ipv4_case :
  must_be_ipv4 Address (VStr "10.0.0.255") = Valid (VStr "10.0.0.255") /\ must_be_ipv4 Address (VStr "10.0.0.256") = BadValue /\
  must_be_ipv4 Address (VStr "10.0.0.01") = BadValue /\ must_be_ipv4 Address (VStr "10.0.0.1/24") = BadValue /\
  must_be_ipv4 Interface (VStr "10.0.0.1/24") = Valid (VStr "10.0.0.1/24") /\
  must_be_ipv4 SubnetPrefix (VStr "10.0.0.1/24") = BadValue /\ must_be_ipv4 SubnetPrefix (VStr "10.0.1.0/24") = Valid (VStr "10.0.1.0/24") /\
  must_be_ipv4 Id (VInt 51) = Valid (VStr "0.0.0.51") /\ must_be_ipv4 Address (VInt 51) = BadValue.
Proof. repeat split; vm_compute; reflexivity. Qed.

Print Assumptions int_range_exact.
Print Assumptions int_result_type.
Print Assumptions int_range_string_refuted.
Print Assumptions asn_int_exact.
Print Assumptions asn_zero_refuted.
Print Assumptions asdot_exact.
Print Assumptions asdot_injective.
Print Assumptions asn_result_range.
Print Assumptions asn_string_exact.
Print Assumptions asn_string_refuted.
Print Assumptions id_exact.
Print Assumptions list_exact.
Print Assumptions rd_exact.
Print Assumptions rd_range_refuted.
Print Assumptions net_exact.
Print Assumptions type_test_frame.
Print Assumptions type_test_sound.
Print Assumptions type_test_decides.
Print Assumptions type_test_missing.
Print Assumptions type_test_idempotent.
Print Assumptions validators_stable.
Print Assumptions int_stable_refuted.
Print Assumptions ipv4_address_exact.
Print Assumptions ipv4_unique.
Print Assumptions ipv4_id_converted.
Print Assumptions ipv4_use_table.
Print Assumptions ipv4_prefix_strict.
