(* Properties C26-C28 and C59: file mappings, environment variables, identifiers. *)
From Coq Require Import String Ascii ZArith Lia Bool List.
From Verif Require Import Base Box_Model Box_Props Dev_Model Dev_Props Mod_Model Mod_Props Text_Model.
Import ListNotations.
Open Scope nat_scope.

(* the character does not occur in the string *)
Definition no_char (c : ascii) (s : string) : Prop := ~ In c (list_ascii_of_string s).

Lemma no_char_cons : forall c x s, no_char c (String x s) <-> x <> c /\ no_char c s.
Proof. intros. unfold no_char. simpl. tauto. Qed.

(* ---------- C26 ---------- *)

Lemma split1_app : forall sep a b, no_char sep a -> split1 sep (a ++ String sep b) = Some (a, b).
Proof.
  intros sep. induction a as [|c a IH]; intros b H; cbn [append split1].
  - rewrite Ascii.eqb_refl. auto.
  - apply no_char_cons in H. destruct H as [H1 H2]. rewrite (proj2 (Ascii.eqb_neq _ _) H1), IH; auto.
Qed.

Lemma split1_Some : forall sep s a b, split1 sep s = Some (a, b) <-> s = (a ++ String sep b)%string /\ no_char sep a.
Proof.
  intros sep s a b. split; [|intros [-> H]; apply split1_app; auto].
  revert a b. induction s as [|c s IH]; intros a b H; cbn [split1] in H; [discriminate|].
  destruct (Ascii.eqb_spec c sep) as [->|N].
  - injection H as <- <-. split; auto. intros [].
  - destruct (split1 sep s) as [[a' b']|]; [|discriminate]. injection H as <- <-.
    destruct (IH a' b' eq_refl) as [-> H2]. split; auto. apply no_char_cons. auto.
Qed.

Lemma split1_None : forall sep s, split1 sep s = None <-> no_char sep s.
Proof.
  intros sep. induction s as [|c s IH]; cbn [split1].
  - split; auto. intros _ [].
  - rewrite no_char_cons. destruct (Ascii.eqb_spec c sep) as [->|N].
    + split; [discriminate|]. intros [C _]. congruence.
    + destruct (split1 sep s) as [[a b]|]; split; try discriminate; try tauto.
      intros [_ H]. apply IH in H. discriminate.
Qed.

(* an entry of a mapping list *)
Definition entry (k v : string) : string := (k ++ String ":" v)%string.

Lemma mapping_fold_app : forall kvs acc m, (forall k v, In (k, v) kvs -> no_char ":" k) ->
  mapping_fold (map (fun kv => entry (fst kv) (snd kv)) kvs ++ m) acc =
  mapping_fold m (fold_left (fun acc kv => dset (fst kv) (snd kv) acc) kvs acc).
Proof.
  induction kvs as [|[k v] r IH]; intros acc m H; simpl; auto.
  unfold entry at 1. rewrite split1_app by (eapply H; left; eauto). apply IH. intros. eapply H. right; eauto.
Qed.

Lemma dset_fresh : forall (A : Type) k (v : A) d, ~ In k (dkeys d) -> dset k v d = d ++ [(k, v)].
Proof.
  induction d as [|[k' v'] r IH]; intros H; simpl; auto.
  destruct (String.eqb_spec k k') as [->|N]; [exfalso; apply H; left; auto|].
  rewrite IH; auto. intros K. apply H. right. auto.
Qed.

Lemma dset_all_fresh : forall (A : Type) (kvs acc : dict A), NoDup (dkeys acc ++ dkeys kvs) ->
  fold_left (fun acc kv => dset (fst kv) (snd kv) acc) kvs acc = acc ++ kvs.
Proof.
  intros A. induction kvs as [|[k v] r IH]; intros acc N; simpl; [rewrite app_nil_r; auto|].
  assert (F : ~ In k (dkeys acc)).
  { intros K. apply NoDup_remove_2 in N. apply N. apply in_app_iff. auto. }
  rewrite dset_fresh by auto. rewrite IH.
  - rewrite <- app_assoc. auto.
  - unfold dkeys in *. rewrite map_app, <- app_assoc. simpl. auto.
Qed.

(* C26: a dictionary whose sources contain no colon survives the conversion to a list and back; *)
Theorem mapping_roundtrip : forall d, NoDup (dkeys d) -> (forall k, In k (dkeys d) -> no_char ":" k) ->
  mapping_to_dict (dict_to_mapping d) = Some d.
Proof.
  intros d N H. unfold mapping_to_dict, dict_to_mapping.
  change (map (fun kv => (fst kv ++ ":" ++ snd kv)%string) d) with (map (fun kv => entry (fst kv) (snd kv)) d).
  rewrite <- (app_nil_r (map _ d)), mapping_fold_app.
  - simpl. rewrite dset_all_fresh; auto.
  - intros k v K. apply H. apply (in_map fst) in K. auto.
Qed.

(* ... a list whose entries have distinct sources survives the opposite conversion; *)
Theorem mapping_list_roundtrip : forall m d, mapping_to_dict m = Some d ->
  (dict_to_mapping d = m <->
   forall l1 k v l2 k' v' l3, m = l1 ++ entry k v :: l2 ++ entry k' v' :: l3 ->
     no_char ":" k -> no_char ":" k' -> k <> k').
Proof.
  intros m d H.
  assert (Q : forall m acc d, mapping_fold m acc = Some d ->
    exists kvs, m = map (fun kv => entry (fst kv) (snd kv)) kvs /\ (forall k v, In (k, v) kvs -> no_char ":" k) /\
      d = fold_left (fun acc kv => dset (fst kv) (snd kv) acc) kvs acc).
  { clear. induction m as [|l r IH]; intros acc d H; cbn [mapping_fold] in H.
    - injection H as <-. exists []. split; auto. split; auto. intros k v [].
    - destruct (split1 ":" l) as [[k v]|] eqn:E; [|discriminate]. apply split1_Some in E. destruct E as [-> Nk].
      destruct (IH _ _ H) as [kvs [-> [H1 ->]]]. exists ((k, v) :: kvs). split; auto. split; auto.
      intros k' v' [K|K]; [injection K as <- <-; auto|eauto]. }
  destruct (Q m [] d H) as [kvs [-> [Hk ->]]]. clear Q H. split.
  - intros E l1 k v l2 k' v' l3 El Nk Nk' Heq. subst k'.
    assert (L : length (fold_left (fun acc kv => dset (fst kv) (snd kv) acc) kvs []) < length kvs).
    { apply (f_equal (@length string)) in E. unfold dict_to_mapping in E. rewrite !map_length in E.
      assert (D : ~ NoDup (dkeys kvs)).
      { intros N. apply map_eq_app in El. destruct El as [a [b [-> [E1 E2]]]].
        apply map_eq_cons in E2. destruct E2 as [[k1 v1] [c [-> [E3 E4]]]].
        apply map_eq_app in E4. destruct E4 as [e [f [-> [E5 E6]]]].
        apply map_eq_cons in E6. destruct E6 as [[k2 v2] [g [-> [E7 E8]]]]. simpl in E3, E7.
        assert (K1 : k1 = k).
        { assert (S : split1 ":" (entry k1 v1) = split1 ":" (entry k v)) by congruence.
          unfold entry in S. rewrite !split1_app in S; [congruence|auto|].
          eapply Hk. apply in_app_iff. right. left. eauto. }
        assert (K2 : k2 = k).
        { assert (S : split1 ":" (entry k2 v2) = split1 ":" (entry k v')) by congruence.
          unfold entry in S. rewrite !split1_app in S; [congruence|auto|].
          eapply Hk. apply in_app_iff. right. right. apply in_app_iff. right. left. eauto. }
        subst k1 k2.
        assert (N' : NoDup (map fst a ++ k :: map fst e ++ k :: map fst g)).
        { unfold dkeys in N. rewrite map_app in N. cbn [map] in N. rewrite map_app in N. exact N. }
        apply NoDup_remove_2 in N'. apply N'.
        apply in_app_iff. right. apply in_app_iff. right. left. auto. }
      assert (Len : forall (kvs acc : dict string), length (fold_left (fun acc kv => dset (fst kv) (snd kv) acc) kvs acc) <= length acc + length kvs
              /\ (length (fold_left (fun acc kv => dset (fst kv) (snd kv) acc) kvs acc) = length acc + length kvs ->
                  NoDup (dkeys acc) -> NoDup (dkeys acc ++ dkeys kvs))).
      { clear. induction kvs as [|[k v] r IH]; intros acc; simpl.
        - split; [lia|]. intros _ N. rewrite app_nil_r. auto.
        - destruct (IH (dset k v acc)) as [I1 I2].
          destruct (in_dec string_dec k (dkeys acc)) as [K|K].
          + assert (L : length (dset k v acc) = length acc).
            { rewrite <- (map_length fst), <- (map_length fst acc). change (map fst (dset k v acc)) with (dkeys (dset k v acc)).
              rewrite dkeys_dset_mem; auto. }
            rewrite L in *. split; [lia|]. intros. lia.
          + rewrite dset_fresh in * by auto. rewrite app_length in *. simpl in *. split; [lia|].
            intros E N.
            assert (Dk : dkeys (acc ++ [(k, v)]) = dkeys acc ++ [k]) by (unfold dkeys; rewrite map_app; auto).
            rewrite Dk, <- app_assoc in I2. simpl in I2. apply I2; [lia|].
            apply (NoDup_Add (a:=k) (l:=dkeys acc)); [|split; auto].
            rewrite <- (app_nil_r (dkeys acc)) at 1. apply Add_app. }
      destruct (Len kvs []) as [L1 L2]. simpl in *.
      destruct (Nat.eq_dec (length (fold_left (fun acc kv => dset (fst kv) (snd kv) acc) kvs [])) (length kvs)) as [Q|Q]; [|lia].
      exfalso. apply D. apply L2; auto. constructor. }
    apply (f_equal (@length string)) in E. unfold dict_to_mapping in E. rewrite !map_length in E. lia.
  - intros H. unfold dict_to_mapping. rewrite dset_all_fresh; auto. simpl.
    assert (N : forall kvs, (forall k v, In (k, v) kvs -> no_char ":" k) ->
      (forall l1 k v l2 k' v' l3, map (fun kv => entry (fst kv) (snd kv)) kvs = l1 ++ entry k v :: l2 ++ entry k' v' :: l3 ->
         no_char ":" k -> no_char ":" k' -> k <> k') -> NoDup (dkeys kvs)); [|apply N; auto].
    clear. induction kvs as [|[k v] r IH]; intros Hk H; simpl; constructor.
    + intros K. apply in_map_iff in K. destruct K as [[k' v'] [E K]]. simpl in E. subst k'.
      apply in_split in K. destruct K as [r1 [r2 ->]].
      apply (H [] k v (map (fun kv => entry (fst kv) (snd kv)) r1) k v' (map (fun kv => entry (fst kv) (snd kv)) r2)); auto.
      * simpl. rewrite map_app. auto.
      * eapply Hk. left. eauto.
      * eapply Hk. left. eauto.
    + apply IH; [intros; eapply Hk; right; eauto|]. intros l1 k1 v1 l2 k2 v2 l3 E.
      apply (H (entry k v :: l1) k1 v1 l2 k2 v2 l3). simpl. rewrite E. auto.
Qed.

(* ... the conversion of a list fails only when an entry contains no colon, the last entry
   with a given source wins; *)
Theorem mapping_to_dict_exact : forall m,
  (mapping_to_dict m = None <-> exists l, In l m /\ no_char ":" l) /\
  (forall d k v, mapping_to_dict m = Some d ->
     (dget k d = Some v <->
      exists l1 l2, m = l1 ++ entry k v :: l2 /\ no_char ":" k /\ forall v', ~ In (entry k v') l2)).
Proof.
  intros m. unfold mapping_to_dict. split.
  - generalize (@nil (string * string)). induction m as [|l r IH]; intros acc; cbn [mapping_fold].
    + split; [discriminate|]. intros [l [[] _]].
    + destruct (split1 ":" l) as [[k v]|] eqn:E.
      * rewrite IH. split; [intros [x [H1 H2]]; exists x; split; auto; right; auto|].
        intros [x [[->|H1] H2]]; [apply split1_None in H2; congruence|eauto].
      * split; auto. intros _. exists l. split; [left; auto|]. apply split1_None. auto.
  - intros d k v. 
    assert (Q : forall m acc d, mapping_fold m acc = Some d ->
      (dget k d = Some v <->
       (exists l1 l2, m = l1 ++ entry k v :: l2 /\ no_char ":" k /\ forall v', ~ In (entry k v') l2) \/
       (dget k acc = Some v /\ (no_char ":" k -> forall v', ~ In (entry k v') m)))).
    { clear. induction m as [|l r IH]; intros acc d H; cbn [mapping_fold] in H.
      - injection H as <-. split; [intros H; right; split; auto|].
        intros [[l1 [l2 [E _]]]|[H _]]; auto. destruct l1; discriminate.
      - destruct (split1 ":" l) as [[k0 v0]|] eqn:E; [|discriminate]. apply split1_Some in E. destruct E as [-> Nk].
        change (k0 ++ String ":" v0)%string with (entry k0 v0) in *.
        rewrite (IH _ _ H). clear IH H. split.
        + intros [[l1 [l2 [-> [H1 H2]]]]|[H1 H2]].
          * left. exists (entry k0 v0 :: l1), l2. auto.
          * destruct (String.eqb_spec k k0) as [->|N].
            -- rewrite dget_dset_same in H1. injection H1 as ->. left. exists [], r. split; auto.
            -- rewrite dget_dset_other in H1 by auto. right. split; auto.
               intros Hk v' [K|K]; [|exact (H2 Hk v' K)].
               assert (S : split1 ":" (entry k0 v0) = split1 ":" (entry k v')) by congruence.
               unfold entry in S. rewrite !split1_app in S; auto. congruence.
        + intros [[l1 [l2 [E [H1 H2]]]]|[H1 H2]].
          * destruct l1 as [|x l1]; simpl in E; injection E as E1 E2.
            -- assert (S : split1 ":" (entry k0 v0) = split1 ":" (entry k v)) by congruence.
               unfold entry in S. rewrite !split1_app in S; auto. injection S as -> ->.
               right. rewrite dget_dset_same. subst l2. auto.
            -- left. exists l1, l2. auto.
          * assert (N : k <> k0).
            { intros ->. apply (H2 Nk v0). left. auto. }
            right. rewrite dget_dset_other by auto. split; auto.
            intros Hk v' K. apply (H2 Hk v'). right. auto. }
    intros H. rewrite (Q m [] d H). split; [intros [K|[K _]]; [auto|discriminate]|auto].
Qed.

(* ... with a colon in the source the round trip returns another mapping. *)
Theorem mapping_roundtrip_colon_refuted :
  exists d, NoDup (dkeys d) /\ mapping_to_dict (dict_to_mapping d) <> Some d.
Proof.
  exists [("a:b", "c")]%string. split; [repeat constructor; simpl; tauto|]. vm_compute. discriminate.
Qed.

Example mapping_case :
  mapping_to_dict (dict_to_mapping [("a.cfg", "/etc/a:ro"); ("b", "")]%string) = Some [("a.cfg", "/etc/a:ro"); ("b", "")]%string
  /\ mapping_to_dict ["a:1"; "b:2"; "a:3"]%string = Some [("a", "3"); ("b", "2")]%string
  /\ mapping_to_dict ["a:1"; "b"]%string = None.
Proof. repeat split; reflexivity. Qed.

(* ---------- C59: file mappings written as dictionaries ---------- *)

(* the box of a key with dots in it: {a.b.c: v} is {a: {b: {c: v}}} *)
Fixpoint nest (path : list string) (v : val) : val :=
  match path with
  | [] => v
  | c :: r => VDict [(c, nest r v)]
  end.

Fixpoint dotted (c : string) (path : list string) : string :=
  match path with
  | [] => c
  | x :: r => (c ++ "." ++ dotted x r)%string
  end.

Lemma append_assoc : forall a b c, ((a ++ b) ++ c)%string = (a ++ b ++ c)%string.
Proof. induction a as [|x a IH]; intros b c; simpl; auto. rewrite IH. auto. Qed.

Lemma dotted_app : forall path a c, dotted (a ++ c) path = (a ++ dotted c path)%string.
Proof. intros [|x r] a c; simpl; auto. apply append_assoc. Qed.

Lemma collapse_nest : forall path c v, is_dict v = false -> collapse c (nest path v) = (dotted c path, v).
Proof.
  induction path as [|x r IH]; intros c v D; simpl.
  - destruct v; try reflexivity. discriminate.
  - rewrite IH by auto. rewrite (dotted_app r c (String "." x)). pose proof (dotted_app r "." x) as E. simpl in E. rewrite E. reflexivity.
Qed.

Lemma string_dict_strings : forall kvs : list (string * list string * string),
  string_dict (map (fun e => (dotted (fst (fst e)) (snd (fst e)), VStr (snd e))) kvs) =
  map (fun e => (dotted (fst (fst e)) (snd (fst e)), snd e)) kvs.
Proof. induction kvs as [|[[c p] s] r IH]; simpl; auto. rewrite IH. auto. Qed.

(* C59: a dictionary of file mappings keyed by file names with dots, in which no two names
   start with the same component, becomes the list of name:target strings; *)
Theorem dotted_mapping_normalized : forall kvs : list (string * list string * string),
  NoDup (map (fun e => dotted (fst (fst e)) (snd (fst e))) kvs) ->
  normalize_file_mapping (Some (VDict (map (fun e => (fst (fst e), nest (snd (fst e)) (VStr (snd e)))) kvs))) =
  (Some (VList (map (fun e => VStr (entry (dotted (fst (fst e)) (snd (fst e))) (snd e))) kvs)), []).
Proof.
  intros kvs N. unfold normalize_file_mapping.
  assert (B : box_to_dict (map (fun e => (fst (fst e), nest (snd (fst e)) (VStr (snd e)))) kvs) =
              map (fun e => (dotted (fst (fst e)) (snd (fst e)), VStr (snd e))) kvs).
  { unfold box_to_dict.
    assert (Q : forall (kvs : list (string * list string * string)) acc,
      fold_left (fun acc kv => let (k, v) := collapse (fst kv) (snd kv) in dset k v acc)
        (map (fun e => (fst (fst e), nest (snd (fst e)) (VStr (snd e)))) kvs) acc =
      fold_left (fun acc kv => dset (fst kv) (snd kv) acc)
        (map (fun e => (dotted (fst (fst e)) (snd (fst e)), VStr (snd e))) kvs) acc).
    { clear. induction kvs as [|[[c p] s] r IH]; intros acc; simpl; auto.
      rewrite collapse_nest by auto. apply IH. }
    rewrite Q, dset_all_fresh; auto. simpl. unfold dkeys. rewrite map_map. auto. }
  rewrite B.
  assert (C : check_mapping_dict (map (fun e => (dotted (fst (fst e)) (snd (fst e)), VStr (snd e))) kvs) = []).
  { clear. induction kvs as [|[[c p] s] r IH]; simpl; auto. }
  rewrite C, string_dict_strings. do 2 f_equal. unfold dict_to_mapping. rewrite !map_map. auto.
Qed.

(* ... a list of mappings is accepted exactly when all its elements are strings with one colon; *)
Definition one_colon (s : string) : Prop := exists a b, s = entry a b /\ no_char ":" a /\ no_char ":" b.

Lemma split_one_colon : forall s, length (split ":" s) = 2 <-> one_colon s.
Proof.
  assert (One : forall s, length (split ":" s) = 1 <-> no_char ":" s).
  { induction s as [|c s IH]; cbn [split]; [simpl; split; auto; intros _ []|].
    rewrite no_char_cons. destruct (Ascii.eqb_spec c ":") as [->|N].
    - cbn [length]. assert (length (split ":" s) <> 0).
      { destruct s as [|x s]; cbn [split]; [discriminate|]. destruct (Ascii.eqb x ":"); [discriminate|].
        destruct (split ":" s); discriminate. }
      split; [lia|]. intros [C _]. congruence.
    - destruct (split ":" s) as [|h t] eqn:E; cbn [length] in *; [|rewrite IH; tauto].
      split; auto. intros _. exfalso. destruct s as [|x s]; cbn [split] in E; [discriminate|].
      destruct (Ascii.eqb x ":"); [discriminate|]. destruct (split ":" s); discriminate. }
  unfold one_colon, entry. induction s as [|c s IH]; cbn [split].
  - simpl. split; [discriminate|]. intros [[|x a] [b [H _]]]; discriminate.
  - destruct (Ascii.eqb_spec c ":") as [->|N].
    + cbn [length]. split.
      * intros H. exists ""%string, s. split; auto. split; [intros []|]. apply One. lia.
      * intros [a [b [H [Ha Hb]]]]. destruct a as [|x a]; simpl in H; [injection H as H2|injection H as H1 H2].
        -- subst. f_equal. apply One. auto.
        -- exfalso. apply Ha. left. auto.
    + assert (Q : length (match split ":" s with [] => [String c ""] | h :: t => String c h :: t end) = length (split ":" s)).
      { destruct (split ":" s) eqn:E; auto. exfalso. destruct s as [|x s]; cbn [split] in E; [discriminate|].
        destruct (Ascii.eqb x ":"); [discriminate|]. destruct (split ":" s); discriminate. }
      rewrite Q, IH. split.
      * intros [a [b [-> [Ha Hb]]]]. exists (String c a), b. split; auto. split; auto. apply no_char_cons. auto.
      * intros [a [b [H [Ha Hb]]]]. destruct a as [|x a]; simpl in H; injection H as H1 H2; [congruence|].
        apply no_char_cons in Ha. exists a, b. tauto.
Qed.

Theorem list_mapping_accepted_iff : forall l,
  (normalize_file_mapping (Some (VList l)) = (Some (VList l), []) <->
   forall x, In x l -> exists s, x = VStr s /\ one_colon s) /\
  ((exists x, In x l /\ forall s, x = VStr s -> ~ one_colon s) ->
   exists e es, normalize_file_mapping (Some (VList l)) = (Some (VList []), e :: es)).
Proof.
  intros l.
  assert (Q : forall idx, check_mapping_list idx l = [] <-> forall x, In x l -> exists s, x = VStr s /\ one_colon s).
  { induction l as [|x r IH]; intros idx; cbn [check_mapping_list].
    - split; auto. intros _ x [].
    - assert (Bad : (forall s, x <> VStr s) -> (False <-> forall y, In y (x :: r) -> exists s, y = VStr s /\ one_colon s)).
      { intros H. split; [intros []|]. intros K. destruct (K x) as [s [E _]]; [left; auto|]. exact (H s E). }
      destruct x as [| | |s| |]; try (rewrite <- Bad by discriminate; split; [discriminate|intros []]).
      destruct (Nat.eqb_spec (length (split ":" s)) 2) as [E|E].
      + rewrite IH. apply split_one_colon in E. split.
        * intros H x [<-|K]; eauto.
        * intros H x K. apply H. right. auto.
      + split; [discriminate|]. intros H. exfalso. apply E. apply split_one_colon.
        destruct (H (VStr s)) as [s' [Es Hs]]; [left; auto|]. injection Es as <-. auto. }
  unfold normalize_file_mapping. split.
  - rewrite <- (Q 0). destruct (check_mapping_list 0 l); [tauto|]. split; intros H; [injection H as _ H|]; discriminate.
  - intros [x [Hx Nx]]. destruct (check_mapping_list 0 l) as [|e es] eqn:E; eauto.
    exfalso. apply (Q 0) in Hx; auto. destruct Hx as [s [Es Hs]]. exact (Nx s Es Hs).
Qed.

(* ... two file names with the same first component cannot be used in a dictionary: the
   mapping is rejected with an error and dropped. *)
Theorem shared_component_mapping_refuted :
  exists d, normalize_file_mapping (Some (VDict d)) = (Some (VList []), [MapNotString "eth0"%string]) /\
    lookup ["eth0"; "cfg"]%string (VDict d) = Some (VStr "/a") /\ lookup ["eth0"; "conf"]%string (VDict d) = Some (VStr "/b").
Proof.
  exists [("eth0", VDict [("cfg", VStr "/a"); ("conf", VStr "/b")])]%string. repeat split; reflexivity.
Qed.

Example dotted_mapping_case :
  normalize_file_mapping (Some (VDict [("a", VDict [("b", VDict [("cfg", VStr "/x:ro")])]); ("z", VStr "/z")]%string)) =
  (Some (VList [VStr "a.b.cfg:/x:ro"; VStr "z:/z"]%string), []) /\
  normalize_file_mapping (Some (VList [VStr "a:b"; VStr "a:b:c"; VInt 3]%string)) =
  (Some (VList []), [MapEntryFormat 2; MapEntryType 3]).
Proof. split; reflexivity. Qed.

(* ---------- C27 ---------- *)

(* the environment variable name for a setting *)
Fixpoint encode (s : string) : string :=
  match s with
  | EmptyString => EmptyString
  | String c r =>
      if Ascii.eqb c "." then String "_" (encode r)
      else if Ascii.eqb c "_" then String "_" (String "_" (encode r))
      else String c (encode r)
  end.

Lemma string_ind2 : forall P : string -> Prop, P ""%string -> (forall c, P (String c "")) ->
  (forall c c' s, P s -> P (String c' s) -> P (String c (String c' s))) -> forall s, P s.
Proof.
  intros P H0 H1 H2. assert (Q : forall s, P s /\ forall c, P (String c s)).
  { induction s as [|c s [I1 I2]]; split; auto. }
  intros s. apply Q.
Qed.

Lemma undouble_cons : forall c r, (Ascii.eqb c "." && starts_with (Ascii.eqb ".") r)%bool = false ->
  undouble (String c r) = String c (undouble r).
Proof.
  intros c [|c' r] H; auto. cbn [undouble]. cbn [starts_with] in H. rewrite (Ascii.eqb_sym "." c') in H. rewrite H. auto.
Qed.

Lemma encode_undouble : forall t, no_char "_" t -> encode (undouble t) = replace_char "." "_" t.
Proof.
  induction t as [|c|c c' s IH1 IH2] using string_ind2; intros H; auto.
  - apply no_char_cons in H. destruct H as [H _]. unfold replace_char. cbn.
    destruct (Ascii.eqb_spec c "."); auto. rewrite (proj2 (Ascii.eqb_neq _ _) H). auto.
  - apply no_char_cons in H. destruct H as [N1 H]. pose proof H as H'. apply no_char_cons in H'. destruct H' as [N2 H'].
    destruct (Ascii.eqb c "." && starts_with (Ascii.eqb ".") (String c' s))%bool eqn:E.
    + apply andb_true_iff in E. destruct E as [E1 E2]. cbn [starts_with] in E2. apply Ascii.eqb_eq in E1, E2. subst.
      change (undouble (String "." (String "." s))) with (String "_" (undouble s)).
      change (encode (String "_" (undouble s))) with (String "_" (String "_" (encode (undouble s)))).
      rewrite IH1 by auto. reflexivity.
    + rewrite undouble_cons by auto. unfold replace_char in *. cbn [encode map_chars].
      cbn [map_chars] in IH2. rewrite IH2 by auto.
      destruct (Ascii.eqb_spec c "."); auto. rewrite (proj2 (Ascii.eqb_neq _ _) N1). auto.
Qed.

Lemma replace_no_char : forall a b s, a <> b -> no_char a (replace_char a b s).
Proof.
  intros a b s N. induction s as [|c s IH]; cbn; [intros []|]. apply no_char_cons. split; auto.
  destruct (Ascii.eqb_spec c a); congruence.
Qed.

Lemma replace_back : forall a b s, no_char b s -> replace_char b a (replace_char a b s) = s.
Proof.
  intros a b. induction s as [|c s IH]; intros H; auto. apply no_char_cons in H. destruct H as [H1 H2].
  unfold replace_char in *. cbn [map_chars]. rewrite IH by auto. f_equal.
  destruct (Ascii.eqb_spec c a) as [->|N]; [rewrite Ascii.eqb_refl; auto|].
  rewrite (proj2 (Ascii.eqb_neq _ _) H1). auto.
Qed.

(* head of a string *)
Definition head_is (f : ascii -> bool) (s : string) : bool := starts_with f s.

Lemma encode_head : forall s, starts_with (fun c => Ascii.eqb c "." || Ascii.eqb c "_") s = false ->
  starts_with (Ascii.eqb ".") (replace_char "_" "." (encode s)) = false.
Proof.
  intros [|c s] H; auto. cbn in H. apply orb_false_iff in H. destruct H as [H1 H2].
  cbn [encode]. rewrite H1, H2. unfold replace_char. cbn [map_chars starts_with]. rewrite H2.
  rewrite Ascii.eqb_sym. auto.
Qed.

(* a dot is never followed by a dot or an underscore *)
Fixpoint clean (s : string) : bool :=
  match s with
  | EmptyString => true
  | String c r => negb (Ascii.eqb c "." && starts_with (fun c => Ascii.eqb c "." || Ascii.eqb c "_") r) && clean r
  end.

Lemma clean_spec : forall s, clean s = true <-> ~ occurs ".." s /\ ~ occurs "._" s.
Proof.
  induction s as [|c s IH]; cbn [clean].
  - split; auto. intros _. split; intros [a [b H]]; destruct a; discriminate.
  - rewrite andb_true_iff, IH, negb_true_iff. clear IH. split.
    + intros [H1 [H2 H3]]. split.
      * intros [a [b E]]. destruct a as [|x a]; simpl in E.
        -- injection E as -> ->. simpl in H1. discriminate.
        -- injection E as -> E. apply H2. exists a, b. auto.
      * intros [a [b E]]. destruct a as [|x a]; simpl in E.
        -- injection E as -> ->. simpl in H1. discriminate.
        -- injection E as -> E. apply H3. exists a, b. auto.
    + intros [H1 H2]. split; [|split].
      * destruct (Ascii.eqb_spec c "."); auto. subst c. destruct s as [|x s]; auto. simpl.
        destruct (Ascii.eqb_spec x ".") as [->|N1]; [exfalso; apply H1; exists ""%string, s; auto|].
        destruct (Ascii.eqb_spec x "_") as [->|N2]; [exfalso; apply H2; exists ""%string, s; auto|]. auto.
      * intros [a [b ->]]. apply H1. exists (String c a), b. auto.
      * intros [a [b ->]]. apply H2. exists (String c a), b. auto.
Qed.

Lemma undouble_encode : forall p, clean p = true -> undouble (replace_char "_" "." (encode p)) = p.
Proof.
  induction p as [|c p IH]; intros H; auto. cbn [clean] in H. apply andb_true_iff in H. destruct H as [H1 H2].
  apply negb_true_iff in H1. cbn [encode]. destruct (Ascii.eqb_spec c ".") as [->|D1].
  - change (replace_char "_" "." (String "_" (encode p))) with (String "." (replace_char "_" "." (encode p))).
    rewrite undouble_cons; [rewrite IH; auto|]. cbn [andb Ascii.eqb Bool.eqb] in *. apply encode_head. exact H1.
  - destruct (Ascii.eqb_spec c "_") as [->|D2].
    + change (undouble (replace_char "_" "." (String "_" (String "_" (encode p))))) with
        (String "_" (undouble (replace_char "_" "." (encode p)))). rewrite IH; auto.
    + unfold replace_char in *. cbn [map_chars]. rewrite (proj2 (Ascii.eqb_neq _ _) D2).
      rewrite undouble_cons; [rewrite IH; auto|]. rewrite (proj2 (Ascii.eqb_neq _ _) D1). auto.
Qed.

Lemma undouble_clean : forall t, no_char "_" t ->
  clean (undouble t) = true /\
  (starts_with (Ascii.eqb ".") t = false -> starts_with (fun c => Ascii.eqb c "." || Ascii.eqb c "_") (undouble t) = false).
Proof.
  induction t as [|c|c c' s IH1 IH2] using string_ind2; intros H; auto.
  - cbn [undouble clean starts_with]. apply no_char_cons in H. destruct H as [H _]. split; [rewrite andb_false_r; auto|].
    intros E. rewrite Ascii.eqb_sym in E. rewrite E, (proj2 (Ascii.eqb_neq _ _) H). auto.
  - apply no_char_cons in H. destruct H as [N1 H]. pose proof H as H'. apply no_char_cons in H'. destruct H' as [N2 H'].
    destruct (Ascii.eqb c "." && starts_with (Ascii.eqb ".") (String c' s))%bool eqn:E.
    + apply andb_true_iff in E. destruct E as [E1 E2]. cbn [starts_with] in E2. apply Ascii.eqb_eq in E1, E2. subst.
      change (undouble (String "." (String "." s))) with (String "_" (undouble s)). split.
      * cbn [clean]. apply IH1. auto.
      * cbn [starts_with]. intros C. discriminate.
    + rewrite undouble_cons by auto. destruct (IH2 H) as [I1 I2]. split.
      * cbn [clean]. rewrite I1, andb_true_r. apply negb_true_iff. destruct (Ascii.eqb c "."); auto.
      * cbn [starts_with]. intros C. rewrite Ascii.eqb_sym in C. rewrite C, (proj2 (Ascii.eqb_neq _ _) N1). auto.
Qed.

Lemma no_char_map : forall c f s, (forall x, f x = c -> x = c) -> no_char c s -> no_char c (map_chars f s).
Proof.
  intros c f s F. induction s as [|x s IH]; intros H; cbn [map_chars]; auto.
  apply no_char_cons in H. apply no_char_cons. split; [intros E; apply F in E; tauto|tauto].
Qed.

Lemma lower_dot : forall x, lower_char x = "."%char -> x = "."%char.
Proof.
  intros x. unfold lower_char. destruct (is_upper x) eqn:U; auto.
  destruct x as [[] [] [] [] [] [] [] []]; vm_compute in U; try discriminate; vm_compute; intros H; discriminate.
Qed.

Lemma lower_char_idem : forall x, lower_char (lower_char x) = lower_char x.
Proof. intros [[] [] [] [] [] [] [] []]; vm_compute; reflexivity. Qed.

Lemma lower_idem : forall s, lower (lower s) = lower s.
Proof.
  unfold lower. induction s as [|c s IH]; cbn [map_chars]; auto. rewrite IH, lower_char_idem. auto.
Qed.

Lemma lower_no_upper : forall s, lower s = s <-> forall c, In c (list_ascii_of_string s) -> is_upper c = false.
Proof.
  assert (Q : forall c, lower_char c = c <-> is_upper c = false).
  { intros [[] [] [] [] [] [] [] []]; vm_compute; split; intros H; try reflexivity; try discriminate. }
  unfold lower. induction s as [|c s IH]; cbn [map_chars list_ascii_of_string].
  - split; auto. intros _ c [].
  - split.
    + intros H. injection H as H1 H2. intros x [<-|K]; [apply Q; auto|apply IH; auto].
    + intros H. rewrite (proj2 (Q c)) by (apply H; left; auto). f_equal. apply IH. intros x K. apply H. right. auto.
Qed.

Lemma drop_app : forall a b, drop (String.length a) (a ++ b) = b.
Proof. induction a; simpl; auto. Qed.

Lemma env_key_Some : forall name k, no_char "." name -> env_key name = Some k ->
  lower name = ("netlab_" ++ encode k)%string /\ clean k = true.
Proof.
  intros name k N H. unfold env_key in H. destruct (prefix "netlab_" (lower name)) eqn:P; [|discriminate].
  apply prefix_spec in P. destruct P as [b E]. rewrite E in H. change 7 with (String.length "netlab_") in H.
  rewrite drop_app in H. injection H as <-.
  assert (Nb : no_char "." b).
  { assert (Nl : no_char "." (lower name)) by (apply no_char_map; auto; apply lower_dot).
    rewrite E in Nl. intros K. apply Nl. simpl. tauto. }
  assert (Nu : no_char "_" (replace_char "_" "." b)) by (apply replace_no_char; discriminate).
  split.
  - rewrite E, encode_undouble by auto. rewrite replace_back; auto.
  - apply undouble_clean. auto.
Qed.

(* C27: different environment variables (up to the case of letters) set different settings; *)
Theorem env_key_injective : forall a b k, no_char "." a -> no_char "." b ->
  env_key a = Some k -> env_key b = Some k -> lower a = lower b.
Proof.
  intros a b k Na Nb Ha Hb. apply env_key_Some in Ha; auto. apply env_key_Some in Hb; auto.
  destruct Ha as [-> _], Hb as [-> _]. auto.
Qed.

Lemma encode_no_dot : forall p, no_char "." (encode p).
Proof.
  induction p as [|c p IH]; cbn [encode]; [intros []|].
  destruct (Ascii.eqb_spec c "."); [apply no_char_cons; split; [discriminate|auto]|].
  destruct (Ascii.eqb_spec c "_"); [apply no_char_cons; split; [discriminate|]; apply no_char_cons; split; [discriminate|auto]|].
  apply no_char_cons. auto.
Qed.

Lemma encode_lower : forall p, lower p = p -> lower (encode p) = encode p.
Proof.
  unfold lower. induction p as [|c p IH]; intros H; auto. cbn [map_chars] in H. injection H as H1 H2. cbn [encode].
  destruct (Ascii.eqb_spec c "."); [cbn [map_chars]; rewrite IH; auto|].
  destruct (Ascii.eqb_spec c "_"); [cbn [map_chars]; rewrite IH; auto|].
  cbn [map_chars]. rewrite IH by auto. congruence.
Qed.

Lemma undouble_lower : forall t, lower t = t -> lower (undouble t) = undouble t.
Proof.
  induction t as [|c|c c' s IH1 IH2] using string_ind2; intros H; auto.
  assert (H' : lower (String c' s) = String c' s) by (unfold lower in *; cbn [map_chars] in *; congruence).
  assert (H'' : lower s = s) by (unfold lower in *; cbn [map_chars] in *; congruence).
  assert (Hc : lower_char c = c) by (unfold lower in *; cbn [map_chars] in *; congruence).
  destruct (Ascii.eqb c "." && starts_with (Ascii.eqb ".") (String c' s))%bool eqn:E.
  - apply andb_true_iff in E. destruct E as [E1 E2]. cbn [starts_with] in E2. apply Ascii.eqb_eq in E1, E2. subst.
    change (undouble (String "." (String "." s))) with (String "_" (undouble s)).
    unfold lower in *. cbn [map_chars]. rewrite IH1; auto.
  - rewrite undouble_cons by auto. unfold lower in *. cbn [map_chars]. rewrite IH2 by auto. congruence.
Qed.

Lemma replace_lower : forall s, lower s = s -> lower (replace_char "_" "." s) = replace_char "_" "." s.
Proof.
  unfold lower, replace_char. induction s as [|c s IH]; intros H; auto. cbn [map_chars] in *.
  injection H as H1 H2. rewrite IH by auto. destruct (Ascii.eqb c "_"); [reflexivity|congruence].
Qed.

Lemma drop_lower : forall n s, lower s = s -> lower (drop n s) = drop n s.
Proof.
  induction n as [|n IH]; intros s H; auto. destruct s as [|c s]; auto. cbn [drop]. apply IH.
  unfold lower in *. cbn [map_chars] in H. congruence.
Qed.

(* ... and a setting can be set exactly when its name has no uppercase letters, no empty inner
   components and no component (but the first) starting with an underscore. *)
Theorem env_key_expressible : forall k,
  (exists name, no_char "." name /\ env_key name = Some k) <->
  ((forall c, In c (list_ascii_of_string k) -> is_upper c = false) /\ ~ occurs ".." k /\ ~ occurs "._" k).
Proof.
  intros k. rewrite <- lower_no_upper, <- clean_spec. split.
  - intros [name [N H]]. split; [|eapply env_key_Some; eauto].
    unfold env_key in H. destruct (prefix "netlab_" (lower name)); [|discriminate]. injection H as <-.
    apply undouble_lower, replace_lower, (drop_lower 7), lower_idem.
  - intros [L C]. exists ("netlab_" ++ encode k)%string. split.
    + intros K. cbn in K. repeat (destruct K as [K|K]; [discriminate|]). exact (encode_no_dot k K).
    + unfold env_key.
      assert (E : lower ("netlab_" ++ encode k) = ("netlab_" ++ encode k)%string).
      { change (lower ("netlab_" ++ encode k)) with ("netlab_" ++ lower (encode k))%string. rewrite encode_lower; auto. }
      rewrite E. assert (P : prefix "netlab_" ("netlab_" ++ encode k) = true) by (apply prefix_spec; eauto).
      rewrite P. change 7 with (String.length "netlab_"). rewrite drop_app, undouble_encode; auto.
Qed.

Example env_key_case :
  map env_key ["NETLAB_DEVICE"; "netlab_bgp_as__list"; "NETLAB_PROVIDERS_CLAB_LAB__PREFIX"; "NETLAB___X"; "PATH"]%string =
  [Some "device"; Some "bgp.as_list"; Some "providers.clab.lab_prefix"; Some "_x"; None]%string.
Proof. reflexivity. Qed.

(* ---------- C28 ---------- *)

Definition word_chars (s : string) : Prop := forall c, In c (list_ascii_of_string s) -> is_word c = true.

(* identifier: not empty, letters, digits and underscores, does not start with a digit *)
Definition valid_id (s : string) : Prop :=
  word_chars s /\ exists c r, s = String c r /\ is_digit c = false.

Definition sub_char (c : ascii) : ascii := if is_word c then c else "_"%char.

Lemma sub_word : forall s, word_chars (map_chars sub_char s).
Proof.
  induction s as [|c s IH]; intros x H; simpl in H; [contradiction|]. destruct H as [<-|H]; auto.
  unfold sub_char. destruct (is_word c) eqn:E; auto.
Qed.

Lemma sub_id : forall s, word_chars s -> map_chars sub_char s = s.
Proof.
  induction s as [|c s IH]; intros H; auto. cbn [map_chars]. rewrite IH by (intros x K; apply H; right; auto).
  unfold sub_char. rewrite (H c); [auto|left; auto].
Qed.

Lemma lstrip_incl : forall f s c, In c (list_ascii_of_string (lstrip f s)) -> In c (list_ascii_of_string s).
Proof.
  intros f. induction s as [|x s IH]; intros c H; auto. cbn [lstrip] in H. destruct (f x); auto. right. auto.
Qed.

Lemma make_id_alt : forall txt, make_id txt =
  let id := lstrip is_digit (map_chars sub_char txt) in
  if starts_with (Ascii.eqb "_") id && negb (starts_with (Ascii.eqb "_") txt) then
    match lstrip (Ascii.eqb "_") id with EmptyString => id | s => s end
  else id.
Proof. reflexivity. Qed.

(* C28: the result consists of letters, digits and underscores; *)
Theorem make_id_chars : forall txt, word_chars (make_id txt).
Proof.
  intros txt. rewrite make_id_alt. cbn zeta.
  assert (W : word_chars (lstrip is_digit (map_chars sub_char txt))).
  { intros c H. apply lstrip_incl in H. exact (sub_word txt c H). }
  destruct (starts_with (Ascii.eqb "_") (lstrip is_digit (map_chars sub_char txt)) && negb (starts_with (Ascii.eqb "_") txt)); auto.
  destruct (lstrip (Ascii.eqb "_") (lstrip is_digit (map_chars sub_char txt))) eqn:E; auto.
  intros c H. rewrite <- E in H. apply lstrip_incl in H. auto.
Qed.

Lemma lstrip_none : forall f c s, f c = false -> lstrip f (String c s) = String c s.
Proof. intros f c s H. cbn [lstrip]. rewrite H. auto. Qed.

Lemma sub_not_digit : forall c, is_digit c = false -> is_digit (sub_char c) = false.
Proof. intros c H. unfold sub_char. destruct (is_word c); auto. Qed.

(* ... identifiers are not changed; *)
Theorem make_id_keeps_ids : forall txt, valid_id txt -> make_id txt = txt.
Proof.
  intros txt [W [c [r [-> D]]]]. rewrite make_id_alt. cbn zeta. rewrite sub_id by auto. rewrite lstrip_none by auto.
  destruct (starts_with (Ascii.eqb "_") (String c r)); auto.
Qed.

(* ... a text that starts with a letter or an underscore becomes an identifier of the same length; *)
Theorem make_id_valid : forall c txt, is_word c = true -> is_digit c = false ->
  valid_id (make_id (String c txt)) /\ String.length (make_id (String c txt)) = String.length (String c txt).
Proof.
  intros c txt W D. rewrite make_id_alt. cbn zeta. cbn [map_chars].
  assert (E : sub_char c = c) by (unfold sub_char; rewrite W; auto). rewrite E, lstrip_none by auto.
  assert (Q : forall A (x y : A), (if starts_with (Ascii.eqb "_") (String c (map_chars sub_char txt)) && negb (starts_with (Ascii.eqb "_") (String c txt)) then x else y) = y).
  { intros A x y. cbn [starts_with]. destruct (Ascii.eqb "_" c); auto. }
  rewrite Q. split.
  - split; [|eauto]. intros x [<-|H]; auto. exact (sub_word txt x H).
  - cbn [String.length]. f_equal. clear. induction txt; simpl; auto.
Qed.

(* ... so sanitizing such a text twice changes nothing. *)
Theorem make_id_idempotent : forall c txt, is_word c = true -> is_digit c = false ->
  make_id (make_id (String c txt)) = make_id (String c txt).
Proof. intros c txt W D. apply make_id_keeps_ids. apply make_id_valid; auto. Qed.

(* For other texts the result may start with a digit (and change when sanitized again), or be
   empty; and different texts have the same identifier. *)
Theorem make_id_valid_refuted :
  ~ valid_id (make_id "1-2a") /\ make_id (make_id "1-2a") <> make_id "1-2a" /\ make_id "42" = ""%string.
Proof.
  split; [|split; [vm_compute; discriminate|reflexivity]].
  intros [_ [c [r [E D]]]]. vm_compute in E. injection E as <- <-. discriminate.
Qed.

Theorem make_id_injective_refuted : exists a b, a <> b /\ make_id a = make_id b /\ valid_id (make_id a).
Proof.
  exists "a-b"%string, "a.b"%string. split; [discriminate|]. split; [reflexivity|]. apply make_id_valid; reflexivity.
Qed.

Example make_id_case : map make_id ["leaf-1"; "_x y"; "10ge"; "-a"; "---"]%string = ["leaf_1"; "_x_y"; "ge"; "a"; "___"]%string.
Proof. reflexivity. Qed.

Print Assumptions mapping_roundtrip.
Print Assumptions mapping_list_roundtrip.
Print Assumptions mapping_to_dict_exact.
Print Assumptions mapping_roundtrip_colon_refuted.
Print Assumptions dotted_mapping_normalized.
Print Assumptions list_mapping_accepted_iff.
Print Assumptions shared_component_mapping_refuted.
Print Assumptions env_key_injective.
Print Assumptions env_key_expressible.
Print Assumptions make_id_chars.
Print Assumptions make_id_keeps_ids.
Print Assumptions make_id_valid.
Print Assumptions make_id_idempotent.
Print Assumptions make_id_valid_refuted.
Print Assumptions make_id_injective_refuted.
