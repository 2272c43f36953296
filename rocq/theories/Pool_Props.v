(* Properties C04-C06: address pools. *)
From Coq Require Import String ZArith Lia Bool List Permutation.
From Verif Require Import Base Pool_Model.
Import ListNotations.
Open Scope Z_scope.

(* ------------------------------------------------------------------ *)
(* Specification                                                        *)

(* address x belongs to network n *)
Definition in_net (w : Z) (x : Z) (n : network) : Prop :=
  net_addr n <= x < net_addr n + 2 ^ (w - net_plen n).

Definition disjoint (w : Z) (a b : network) : Prop :=
  forall x, in_net w x a -> in_net w x b -> False.

Definition subnet_of (w : Z) (a b : network) : Prop :=
  forall x, in_net w x a -> in_net w x b.

(* the n-th request, normalised: request 0 is the same as "next" *)
Definition is_next (o : pool_op) : bool :=
  match o with PNext => true | PNth O => true | _ => false end.

(* two requests that are meant to return the same prefix *)
Definition same_request (a b : pool_op) : Prop :=
  exists n, a = PNth (S n) /\ b = PNth (S n).

(* a pool definition accepted by validate_pools (addressing.py:189-198, 201) *)
Definition valid_pool (w : Z) (n : network) (newp : Z) : Prop :=
  0 <= net_plen n <= newp /\ newp <= w.

(* when the first subnet is skipped (documented behaviour: host prefixes and the loopback
   pool do not use the first address) *)
Definition skips_first (w newp : Z) (lb : bool) : Prop :=
  lb = true \/ (w = 32 /\ newp = 32) \/ (w = 128 /\ 127 <= newp).

Definition is_skip (w newp : Z) (lb : bool) (skip : Z) : Prop :=
  (skips_first w newp lb /\ skip = 1) \/ (~ skips_first w newp lb /\ skip = 0).

(* ------------------------------------------------------------------ *)
(* Arithmetic of subnets                                                *)

Definition elem (w : Z) (n : network) (newp k : Z) : network :=
  mk_net (net_addr n + k * 2 ^ (w - newp)) newp.

Lemma elem_disjoint : forall w n newp i j,
  newp <= w -> i <> j -> disjoint w (elem w n newp i) (elem w n newp j).
Proof.
  intros w n newp i j Hw Hij x [H1 H2] [H3 H4]. simpl in *.
  assert (P : 0 < 2 ^ (w - newp)) by (apply Z.pow_pos_nonneg; lia).
  destruct (Z_lt_ge_dec i j).
  - assert (i + 1 <= j) by lia. nia.
  - assert (j + 1 <= i) by lia. nia.
Qed.

Lemma elem_subnet : forall w n newp k,
  valid_pool w n newp -> 0 <= k < 2 ^ (newp - net_plen n) ->
  subnet_of w (elem w n newp k) n.
Proof.
  intros w n newp k [[V1 V2] V3] Hk x [H1 H2]. unfold in_net. simpl in *.
  assert (P : 0 < 2 ^ (w - newp)) by (apply Z.pow_pos_nonneg; lia).
  assert (E : 2 ^ (w - net_plen n) = 2 ^ (newp - net_plen n) * 2 ^ (w - newp)).
  { rewrite <- Z.pow_add_r; try lia. f_equal; lia. }
  rewrite E. nia.
Qed.

(* ------------------------------------------------------------------ *)
(* Invariant: every prefix handed out corresponds to a position below   *)
(* the generator position; sequential prefixes are not in the cache.    *)

Section Run.
Variables (w : Z) (n : network) (newp : Z).
Hypothesis V : valid_pool w n newp.

Definition cnt : Z := 2 ^ (newp - net_plen n).

(* the state of the pool in terms of subnet numbers: cache positions *)
Definition pool_at (p : pool) (pos : Z) (cache : list Z) : Prop :=
  p_gen p = mk_gen n newp pos /\ p_cache p = map (elem w n newp) cache /\
  0 <= pos /\ NoDup cache /\ (forall k, In k cache -> 0 <= k < pos).

Lemma gen_next_at : forall pos,
  gen_next w (mk_gen n newp pos) =
  if pos <? cnt then Some (elem w n newp pos, mk_gen n newp (pos + 1)) else None.
Proof. reflexivity. Qed.

Lemma fill_cache_spec : forall todo pos cache ok g c,
  0 <= pos -> NoDup cache -> (forall k, In k cache -> 0 <= k < pos) ->
  fill_cache w todo (mk_gen n newp pos) (map (elem w n newp) cache) = (ok, g, c) ->
  exists m, (m <= todo)%nat /\
    g = mk_gen n newp (pos + Z.of_nat m) /\
    c = map (elem w n newp) (cache ++ zseq pos m) /\
    (pos <= cnt -> pos + Z.of_nat m <= cnt) /\
    (ok = true <-> m = todo) /\
    (ok = false -> cnt <= pos + Z.of_nat m).
Proof.
  induction todo as [|t IH]; intros pos cache ok g c P ND B H.
  - simpl in H. inversion H; subst. exists O. simpl.
    rewrite app_nil_r, Z.add_0_r. repeat split; auto; try lia; discriminate.
  - cbn [fill_cache] in H. rewrite gen_next_at in H.
    destruct (pos <? cnt) eqn:E.
    + replace (map (elem w n newp) cache ++ [elem w n newp pos])
        with (map (elem w n newp) (cache ++ [pos])) in H by now rewrite map_app.
      apply IH in H; try lia.
      * destruct H as [m [Hm [Hg [Hc [H1 [H2 H3]]]]]].
        apply Z.ltb_lt in E.
        exists (S m). split; [lia|]. split; [rewrite Hg; f_equal; lia|].
        split; [rewrite Hc; f_equal; rewrite <- app_assoc; reflexivity|].
        split; [lia|]. split.
        -- split; intros Q; [f_equal; now apply H2 | apply H2; lia].
        -- intros Q. specialize (H3 Q). lia.
      * apply NoDup_app_intro; auto.
        -- constructor; auto. constructor.
        -- intros x Hx [Hy|[]]; subst. apply B in Hx. lia.
      * intros k Hk. apply in_app_or in Hk. destruct Hk as [Hk|[Hk|[]]].
        -- apply B in Hk. lia.
        -- lia.
    + apply Z.ltb_ge in E. inversion H; subst. exists O. simpl.
      rewrite app_nil_r, Z.add_0_r. repeat split; auto; try lia; discriminate.
Qed.

(* one request: result is the element at a known subnet number *)
Lemma step_spec : forall o p pos cache x p',
  pool_at p pos cache -> get_pool_prefix w o p = (x, p') ->
  exists pos' cache' ,
    pool_at p' pos' cache' /\ pos <= pos' /\ (pos <= cnt -> pos' <= cnt) /\
    (exists ext, cache' = cache ++ ext /\ (forall k, In k ext -> pos <= k < pos')) /\
    (is_next o = true ->
       cache' = cache /\
       ((pos < cnt /\ x = Some (elem w n newp pos) /\ pos' = pos + 1) \/
        (cnt <= pos /\ x = None /\ pos' = pos))) /\
    (forall m, o = PNth (S m) ->
       (length cache' <= Nat.max (length cache) (S m))%nat /\
       pos' = pos + Z.of_nat (length cache' - length cache) /\
       cache' = cache ++ zseq pos (length cache' - length cache) /\
       ((exists k, nth_error cache' m = Some k /\ x = Some (elem w n newp k)) \/
        (x = None /\ (length cache' <= m)%nat /\ cnt <= pos'))).
Proof.
  intros o p pos cache x p' [Hg [Hc [Hp [ND B]]]] H.
  assert (Nx : forall x p', match gen_next w (p_gen p) with
      | Some (x, g') => (Some x, mk_pool g' (p_cache p)) | None => (None, p) end = (x, p') ->
      exists pos', pool_at p' pos' cache /\ pos <= pos' /\ (pos <= cnt -> pos' <= cnt) /\
        ((pos < cnt /\ x = Some (elem w n newp pos) /\ pos' = pos + 1) \/
        (cnt <= pos /\ x = None /\ pos' = pos))).
  { clear H x p'. intros x p' H. rewrite Hg, gen_next_at in H.
    destruct (pos <? cnt) eqn:E.
    - apply Z.ltb_lt in E. inversion H; subst. exists (pos + 1). split; [|split; [|split]]; try lia.
      + split; simpl; auto. split; auto. split; [lia|]. split; auto.
        intros k Hk; apply B in Hk; lia.
      + left; repeat split; auto; lia.
    - apply Z.ltb_ge in E. inversion H; subst. exists pos. split; [|split; [|split]]; try lia.
      + split; auto.
      + right; auto. }
  destruct o as [|[|m]]; cbn [get_pool_prefix] in H.
  - destruct (Nx _ _ H) as [pos' [Q1 [Q2 [Q3 Q4]]]]. exists pos', cache.
    split; [exact Q1|]. split; [exact Q2|]. split; [exact Q3|]. split.
    { exists []. rewrite app_nil_r. split; auto. intros k []. }
    split; [auto|discriminate].
  - destruct (Nx _ _ H) as [pos' [Q1 [Q2 [Q3 Q4]]]]. exists pos', cache.
    split; [exact Q1|]. split; [exact Q2|]. split; [exact Q3|]. split.
    { exists []. rewrite app_nil_r. split; auto. intros k []. }
    split; [auto|discriminate].
  - clear Nx. rewrite Hg, Hc, map_length in H.
    destruct (fill_cache w (S m - length cache) (mk_gen n newp pos) (map (elem w n newp) cache))
      as [[ok g'] c'] eqn:F.
    apply fill_cache_spec in F; auto.
    destruct F as [j [Fj [Fg [Fc [Fle [Fok Ffail]]]]]].
    set (cache' := cache ++ zseq pos j) in *.
    assert (Lc : length cache' = (length cache + j)%nat).
    { unfold cache'. rewrite app_length, zseq_length. auto. }
    assert (At : pool_at (mk_pool g' c') (pos + Z.of_nat j) cache').
    { split; [exact Fg|]. split; [exact Fc|]. split; [lia|]. split.
      - apply NoDup_app_intro; auto.
        + apply zseq_NoDup.
        + intros y Hy Hz. apply B in Hy. apply zseq_In in Hz. lia.
      - intros k Hk. unfold cache' in Hk. apply in_app_or in Hk. destruct Hk as [Hk|Hk].
        + apply B in Hk. lia.
        + apply zseq_In in Hk. lia. }
    exists (pos + Z.of_nat j), cache'.
    assert (Lj : (length cache' - length cache)%nat = j) by lia.
    assert (P' : p' = mk_pool g' c') by (destruct ok; inversion H; auto).
    rewrite P'. split; [exact At|]. split; [lia|]. split; [auto|]. split.
    { exists (zseq pos j). split; auto. intros k Hk. apply zseq_In in Hk. lia. }
    split; [discriminate|].
    intros m' Hm'. inversion Hm'; subst m'. rewrite Lj.
    split; [lia|]. split; [auto|]. split; [auto|].
    destruct ok.
    + left. assert (j = (S m - length cache)%nat) by now apply Fok.
      assert (Hlt : (m < length cache')%nat) by lia.
      apply nth_error_Some in Hlt. destruct (nth_error cache' m) as [k|] eqn:En; [|congruence].
      exists k. split; auto. injection H as E1 E2. rewrite <- E1, Fc, nth_error_map, En. reflexivity.
    + right. injection H as E1 E2. split; auto.
      assert (j <> (S m - length cache)%nat) by (intros C; apply Fok in C; discriminate).
      split; [lia|]. now apply Ffail.
Qed.

Lemma elem_inj : forall i j, elem w n newp i = elem w n newp j -> i = j.
Proof.
  intros i j H. inversion H.
  assert (P : 0 < 2 ^ (w - newp)) by (destruct V as [[? ?] ?]; apply Z.pow_pos_nonneg; lia).
  nia.
Qed.

Lemma map_elem_inj : forall a b, map (elem w n newp) a = map (elem w n newp) b -> a = b.
Proof.
  induction a as [|x a IH]; destruct b as [|y b]; simpl; intros H; try discriminate; auto.
  injection H as H1 H2. f_equal; auto. apply elem_inj. unfold elem; congruence.
Qed.

Lemma pool_at_fun : forall p pos cache pos' cache',
  pool_at p pos cache -> pool_at p pos' cache' -> pos = pos' /\ cache = cache'.
Proof.
  intros p pos cache pos' cache' [A1 [A2 _]] [B1 [B2 _]].
  rewrite A1 in B1. inversion B1. rewrite A2 in B2. split; auto. now apply map_elem_inj.
Qed.

End Run.

(* Answers of a run: future answers relate to the present state. *)
Lemma run_future : forall w n newp (V : valid_pool w n newp) h p pos cache xs p',
  pool_at w n newp p pos cache -> pos <= cnt n newp ->
  pool_run w h p = (xs, p') ->
  (forall o r, In (o, Some r) xs ->
     (exists k, r = elem w n newp k /\ 0 <= k < cnt n newp /\
        ((is_next o = true /\ pos <= k) \/
         (exists m, o = PNth (S m) /\
            ((nth_error cache m = Some k) \/ ((length cache <= m)%nat /\ pos <= k))))))
  /\ ForallOrdPairs (fun a b =>
        forall ra rb, snd a = Some ra -> snd b = Some rb ->
          (same_request (fst a) (fst b) /\ ra = rb) \/
          (~ same_request (fst a) (fst b) /\ disjoint w ra rb)) xs.
Proof.
  intros w n newp V. induction h as [|o h IH]; intros p pos cache xs p' At Le H.
  - simpl in H. inversion H; subst. split; [intros o r []|constructor].
  - cbn [pool_run] in H.
    destruct (get_pool_prefix w o p) as [x p1] eqn:Stp.
    destruct (pool_run w h p1) as [xs1 p2] eqn:R. inversion H; subst.
    pose proof (step_spec w n newp o p pos cache x p1 At Stp) as
      [pos1 [cache1 [At1 [Mono [Le1 [[ext [Ext1 Ext2]] [Nx Nth]]]]]]].
    specialize (IH p1 pos1 cache1 xs1 p' At1 (Le1 Le) R). destruct IH as [IH1 IH2].
    assert (B := At). destruct B as [_ [_ [_ [ND B]]]].
    assert (B1 := At1). destruct B1 as [_ [_ [_ [ND1 B1]]]].
    (* later answers, seen from the earlier state *)
    assert (Later : forall o' r, In (o', Some r) xs1 ->
       exists k, r = elem w n newp k /\ 0 <= k < cnt n newp /\
        ((is_next o' = true /\ pos1 <= k) \/
         (exists m, o' = PNth (S m) /\
            ((nth_error cache1 m = Some k) \/ ((length cache1 <= m)%nat /\ pos1 <= k))))) by exact IH1.
    split.
    + intros o' r [Heq|Hin].
      * inversion Heq; subst o' x.
        destruct o as [|[|m]].
        -- destruct (Nx eq_refl) as [_ [[Q1 [Q2 Q3]]|[_ [Q2 _]]]]; [|discriminate].
           inversion Q2; subst. exists pos. repeat split; auto; try lia.
           ++ destruct At as [_ [_ [? _]]]; lia.
           ++ left. split; auto. lia.
        -- destruct (Nx eq_refl) as [_ [[Q1 [Q2 Q3]]|[_ [Q2 _]]]]; [|discriminate].
           inversion Q2; subst. exists pos. repeat split; auto; try lia.
           ++ destruct At as [_ [_ [? _]]]; lia.
           ++ left. split; auto. lia.
        -- destruct (Nth m eq_refl) as [_ [_ [_ [[k [Q1 Q2]]|[Q2 _]]]]]; [|discriminate].
           inversion Q2; subst. exists k.
           assert (In k (cache ++ ext)) by (eapply nth_error_In; eauto).
           assert (0 <= k < pos1) by (apply B1; auto).
           repeat split; auto; try lia.
           right. exists m. split; auto.
           destruct (Nat.lt_ge_cases m (length cache)) as [L|L].
           ++ left. rewrite nth_error_app1 in Q1; auto.
           ++ right. split; auto. rewrite nth_error_app2 in Q1; auto.
              apply nth_error_In in Q1. apply Ext2 in Q1. lia.
      * destruct (Later o' r Hin) as [k [Q1 [Q2 Q3]]]. exists k. repeat split; auto; try lia.
        destruct Q3 as [[Q3 Q4]|[m [Q3 [Q4|[Q4 Q5]]]]].
        -- left; split; auto; lia.
        -- right. exists m; split; auto. rewrite Ext1 in Q4.
           destruct (Nat.lt_ge_cases m (length cache)) as [L|L].
           ++ left. rewrite nth_error_app1 in Q4; auto.
           ++ right. split; auto. rewrite nth_error_app2 in Q4; auto.
              apply nth_error_In in Q4. apply Ext2 in Q4. lia.
        -- right. exists m; split; auto. right. split; [|lia].
           rewrite Ext1, app_length in Q4. lia.
    + constructor; auto.
      apply Forall_forall. intros [o' x'] Hin ra rb Ha Hb. simpl in Ha, Hb. subst x x'.
      destruct (Later o' rb Hin) as [k [Q1 [Q2 Q3]]]. subst rb. simpl.
      (* subnet number of the present answer *)
      destruct o as [|[|m]].
      * destruct (Nx eq_refl) as [Hc [[P1 [P2 P3]]|[_ [P2 _]]]]; [|discriminate].
        inversion P2; subst ra. right. split; [intros [? [? ?]]; discriminate|].
        apply elem_disjoint; [apply V|].
        destruct Q3 as [[_ Q4]|[m' [_ [Q4|[_ Q5]]]]]; try lia.
        intros C; subst k. apply nth_error_In in Q4. rewrite Hc in Q4. apply B in Q4. lia.
      * destruct (Nx eq_refl) as [Hc [[P1 [P2 P3]]|[_ [P2 _]]]]; [|discriminate].
        inversion P2; subst ra. right. split; [intros [? [? ?]]; discriminate|].
        apply elem_disjoint; [apply V|].
        destruct Q3 as [[_ Q4]|[m' [_ [Q4|[_ Q5]]]]]; try lia.
        intros C; subst k. apply nth_error_In in Q4. rewrite Hc in Q4. apply B in Q4. lia.
      * destruct (Nth m eq_refl) as [_ [_ [_ [[k0 [P1 P2]]|[P2 _]]]]]; [|discriminate].
        inversion P2; subst ra.
        assert (K0 : 0 <= k0 < pos1) by (apply B1; eapply nth_error_In; eauto).
        destruct Q3 as [[Q3 Q4]|[m' [Q3 Q4]]].
        -- right. split; [intros [? [? C]]; subst o'; discriminate|].
           apply elem_disjoint; [apply V|lia].
        -- subst o'. destruct (Nat.eq_dec m m') as [->|Nm].
           ++ left. split; [exists m'; auto|].
              destruct Q4 as [Q4|[Q4 _]].
              ** rewrite P1 in Q4. inversion Q4. auto.
              ** exfalso. assert (m' < length cache1)%nat by (apply nth_error_Some; congruence). lia.
           ++ right. split; [intros [? [C1 C2]]; inversion C1; inversion C2; congruence|].
              apply elem_disjoint; [apply V|].
              destruct Q4 as [Q4|[_ Q5]]; [|lia].
              intros C; subst k0. apply Nm.
              eapply NoDup_nth_error; eauto.
              ** apply nth_error_Some; congruence.
              ** congruence.
Qed.

Lemma create_pool_at : forall w n newp lb p,
  create_pool w n newp lb = Some p ->
  exists skip, is_skip w newp lb skip /\ skip <= cnt n newp /\ pool_at w n newp p skip []
    /\ net_plen n <= newp <= w.
Proof.
  intros w n newp lb p H. unfold create_pool in H.
  destruct ((newp <? net_plen n) || (newp >? w)) eqn:E; [discriminate|].
  apply orb_false_iff in E. destruct E as [E1 E2].
  apply Z.ltb_ge in E1. rewrite Z.gtb_ltb in E2. apply Z.ltb_ge in E2.
  assert (Sp : ((w =? 32) && (newp =? 32)) || ((w =? 128) && (newp >=? 127)) || lb = true
               <-> skips_first w newp lb).
  { unfold skips_first. rewrite !orb_true_iff, !andb_true_iff, !Z.eqb_eq, Z.geb_leb, Z.leb_le.
    intuition. }
  destruct (((w =? 32) && (newp =? 32)) || ((w =? 128) && (newp >=? 127)) || lb).
  - unfold gen_next in H. simpl in H. unfold gen_count in H. simpl in H.
    destruct (0 <? 2 ^ (newp - net_plen n)) eqn:P; [|discriminate].
    inversion H; subst. exists 1. apply Z.ltb_lt in P. unfold cnt.
    split; [left; split; [apply Sp|]; auto|]. split; [lia|].
    repeat split; simpl; auto; try lia; try constructor; intros; contradiction.
  - inversion H; subst. exists 0. unfold cnt.
    assert (0 < 2 ^ (newp - net_plen n)) by (apply Z.pow_pos_nonneg; lia).
    split. { right. split; auto. intros C. apply Sp in C. discriminate. }
    split; [lia|].
    repeat split; simpl; auto; try lia; try constructor; try (intros; contradiction).
Qed.

(* C04 *)
Theorem pool_prefixes_disjoint : forall w n newp lb p h xs p',
  0 <= net_plen n ->
  create_pool w n newp lb = Some p ->
  pool_run w h p = (xs, p') ->
  (forall o r, In (o, Some r) xs -> net_plen r = newp /\ subnet_of w r n) /\
  ForallOrdPairs (fun a b =>
        forall ra rb, snd a = Some ra -> snd b = Some rb ->
          (same_request (fst a) (fst b) /\ ra = rb) \/
          (~ same_request (fst a) (fst b) /\ disjoint w ra rb)) xs.
Proof.
  intros w n newp lb p h xs p' H0 Hc H.
  apply create_pool_at in Hc. destruct Hc as [skip [Hs [Hle [At Hp]]]].
  assert (V : valid_pool w n newp) by (unfold valid_pool; lia).
  destruct (run_future w n newp V h p skip [] xs p' At Hle H) as [A B].
  split; auto. intros o r Hin. destruct (A o r Hin) as [k [-> [Hk _]]].
  split; auto. apply elem_subnet; auto.
Qed.

(* 10.0.0.0/30 split into /32 host routes, loopback pool: mixed requests *)
Example pool_prefixes_case :
  exists p, create_pool 32 (mk_net 167772160 29) 32 true = Some p /\
  fst (pool_run 32 [PNth 2; PNext; PNth 1; PNth 2; PNext; PNth 4; PNth 9] p) =
  [ (PNth 2, Some (mk_net 167772162 32)); (PNext, Some (mk_net 167772163 32));
    (PNth 1, Some (mk_net 167772161 32)); (PNth 2, Some (mk_net 167772162 32));
    (PNext, Some (mk_net 167772164 32)); (PNth 4, Some (mk_net 167772166 32));
    (PNth 9, None) ].
Proof. eexists; split; vm_compute; reflexivity. Qed.

(* C05 *)
Definition nth_only (h : list pool_op) : Prop :=
  Forall (fun o => exists m, o = PNth (S m)) h.

Lemma nth_run_inv : forall w n newp (V : valid_pool w n newp) h p skip j xs p',
  nth_only h ->
  pool_at w n newp p (skip + Z.of_nat j) (zseq skip j) -> 0 <= skip ->
  skip + Z.of_nat j <= cnt n newp ->
  pool_run w h p = (xs, p') ->
  forall m x, In (PNth (S m), x) xs ->
    x = if skip + Z.of_nat m <? cnt n newp then Some (elem w n newp (skip + Z.of_nat m)) else None.
Proof.
  intros w n newp V. induction h as [|o h IH]; intros p skip j xs p' F At Hs Hle H m x Hin.
  - simpl in H. inversion H; subst. contradiction.
  - cbn [pool_run] in H. inversion F as [|? ? [mo Ho] F']; subst.
    destruct (get_pool_prefix w (PNth (S mo)) p) as [x1 p1] eqn:Stp.
    destruct (pool_run w h p1) as [xs1 p2] eqn:R. inversion H; subst.
    destruct (step_spec w n newp (PNth (S mo)) p (skip + Z.of_nat j) (zseq skip j) x1 p1 At Stp)
      as [pos1 [cache1 [At1 [Mono [Le1 [_ [_ Nth]]]]]]].
    destruct (Nth mo eq_refl) as [N1 [N2 [N3 N4]]].
    rewrite zseq_length in N1, N2, N3.
    set (e := (length cache1 - j)%nat) in *.
    assert (Cz : cache1 = zseq skip (j + e)).
    { rewrite zseq_app. exact N3. }
    assert (Pz : pos1 = skip + Z.of_nat (j + e)) by lia.
    destruct Hin as [Heq|Hin].
    + inversion Heq; subst x mo.
      destruct N4 as [[k [Q1 Q2]]|[Q1 [Q2 Q3]]].
      * assert (Lm : (m < length cache1)%nat) by (apply nth_error_Some; congruence).
        assert (Hk : k = skip + Z.of_nat m).
        { rewrite Cz in Q1. rewrite Cz, zseq_length in Lm.
          rewrite nth_error_zseq in Q1 by auto. inversion Q1; auto. }
        subst k. rewrite Q2.
        assert (skip + Z.of_nat m < cnt n newp).
        { rewrite Cz, zseq_length in Lm. specialize (Le1 Hle). lia. }
        apply Z.ltb_lt in H0. now rewrite H0.
      * assert (Hge : cnt n newp <= skip + Z.of_nat m).
        { rewrite Cz, zseq_length in Q2. lia. }
        apply Z.ltb_ge in Hge. now rewrite Hge.
    + rewrite Pz, Cz in At1. eapply (IH p1 skip (j + e)%nat); eauto.
      specialize (Le1 Hle). lia.
Qed.

Theorem nth_prefix_function_of_n : forall w n newp lb p h xs p',
  0 <= net_plen n ->
  create_pool w n newp lb = Some p ->
  nth_only h ->
  pool_run w h p = (xs, p') ->
  exists skip, is_skip w newp lb skip /\
  forall m x, In (PNth (S m), x) xs ->
    x = (if skip + Z.of_nat m <? 2 ^ (newp - net_plen n)
         then Some (mk_net (net_addr n + (skip + Z.of_nat m) * 2 ^ (w - newp)) newp)
         else None).
Proof.
  intros w n newp lb p h xs p' H0 Hc F H.
  apply create_pool_at in Hc. destruct Hc as [skip [Hs [Hle [At Hp]]]].
  assert (V : valid_pool w n newp) by (unfold valid_pool; lia).
  exists skip. split; auto. intros m x Hin.
  assert (0 <= skip) by (destruct Hs as [[_ ->]|[_ ->]]; lia).
  apply (nth_run_inv w n newp V h p skip 0 xs p'); auto; try (simpl; rewrite ?Z.add_0_r; auto; lia).
Qed.

(* Loopback /32s of nodes are pool base + node id, whatever the order of nodes *)
Corollary loopback_address_function_of_id : forall n p h xs p' id x,
  0 <= net_plen n -> create_pool 32 n 32 true = Some p ->
  nth_only h -> pool_run 32 h p = (xs, p') ->
  In (PNth (S id), Some x) xs ->
  net_addr x = net_addr n + Z.of_nat (S id) /\ net_plen x = 32.
Proof.
  intros n p h xs p' id x H0 Hc F H Hin.
  destruct (nth_prefix_function_of_n 32 n 32 true p h xs p' H0 Hc F H) as [skip [Hs A]].
  specialize (A _ _ Hin).
  destruct Hs as [[_ ->]|[C _]]; [|exfalso; apply C; left; reflexivity].
  destruct (1 + Z.of_nat id <? 2 ^ (32 - net_plen n)); [|discriminate].
  assert (X : x = mk_net (net_addr n + (1 + Z.of_nat id) * 2 ^ (32 - 32)) 32) by congruence.
  rewrite X. cbn [net_addr net_plen]. change (2 ^ (32 - 32)) with 1. split; lia.
Qed.

Example nth_prefix_case :
  exists p, create_pool 32 (mk_net 167772160 24) 32 true = Some p /\
  nth_only [PNth 7; PNth 3; PNth 7] /\
  fst (pool_run 32 [PNth 7; PNth 3; PNth 7] p) =
  [ (PNth 7, Some (mk_net 167772167 32)); (PNth 3, Some (mk_net 167772163 32));
    (PNth 7, Some (mk_net 167772167 32)) ].
Proof.
  eexists; split; [|split]; try (vm_compute; reflexivity).
  repeat constructor; eexists; reflexivity.
Qed.

(* Sequential requests in between shift the n-th prefix. *)
Theorem nth_prefix_shifted_by_next_refuted :
  exists p h1 h2 x1 x2,
    create_pool 32 (mk_net 167772160 24) 32 true = Some p /\
    In (PNth 2, Some x1) (fst (pool_run 32 h1 p)) /\
    In (PNth 2, Some x2) (fst (pool_run 32 h2 p)) /\ x1 <> x2.
Proof.
  eexists. exists [PNth 2], [PNth 1; PNext; PNth 2].
  exists (mk_net 167772162 32), (mk_net 167772163 32).
  split; [vm_compute; reflexivity|].
  split; [left; vm_compute; reflexivity|].
  split; [right; right; left; vm_compute; reflexivity|]. discriminate.
Qed.

(* C06 *)
(* Independent account of a history in which every request was served:
   number of sequential requests and largest n-th request. *)
Definition nexts (h : list pool_op) : nat := length (filter is_next h).
Definition max_nth (h : list pool_op) : nat :=
  fold_right Nat.max 0%nat (map (fun o => match o with PNth m => m | PNext => 0%nat end) h).

Lemma nexts_cons : forall o h, nexts (o :: h) = ((if is_next o then 1 else 0) + nexts h)%nat.
Proof. intros o h. unfold nexts. simpl. destruct (is_next o); reflexivity. Qed.

Lemma max_nth_cons : forall o h,
  max_nth (o :: h) = Nat.max (match o with PNth m => m | PNext => 0%nat end) (max_nth h).
Proof. reflexivity. Qed.

Definition all_served (xs : list (pool_op * option network)) : Prop :=
  forall e, In e xs -> snd e <> None.

Lemma served_inv : forall w n newp (V : valid_pool w n newp) h p pos cache xs p',
  pool_at w n newp p pos cache -> pos <= cnt n newp ->
  pool_run w h p = (xs, p') -> all_served xs ->
  exists pos' cache', pool_at w n newp p' pos' cache' /\ pos' <= cnt n newp /\
    length cache' = Nat.max (length cache) (max_nth h) /\
    pos' = pos + Z.of_nat (nexts h) + Z.of_nat (length cache' - length cache).
Proof.
  intros w n newp V. induction h as [|o h IH]; intros p pos cache xs p' At Le H Sv.
  - simpl in H. inversion H; subst. exists pos, cache.
    cbn [nexts max_nth map fold_right filter length]. rewrite Nat.max_0_r, Nat.sub_diag.
    split; [exact At|]. split; [exact Le|]. split; [reflexivity|lia].
  - cbn [pool_run] in H.
    destruct (get_pool_prefix w o p) as [x p1] eqn:Stp.
    destruct (pool_run w h p1) as [xs1 p2] eqn:R. inversion H; subst.
    pose proof (step_spec w n newp o p pos cache x p1 At Stp) as
      [pos1 [cache1 [At1 [Mono [Le1 [_ [Nx Nth]]]]]]].
    assert (Sv1 : all_served xs1) by (intros e He; apply Sv; right; auto).
    assert (Hx : x <> None) by (apply (Sv (o, x)); left; auto).
    destruct (IH p1 pos1 cache1 xs1 p' At1 (Le1 Le) R Sv1) as [pos' [cache' [A1 [A2 [A3 A4]]]]].
    exists pos', cache'. split; auto. split; auto.
    rewrite nexts_cons, max_nth_cons.
    destruct o as [|[|m]]; cbn [is_next].
    + destruct (Nx eq_refl) as [Hc [[P1 [P2 P3]]|[_ [P2 _]]]]; [|contradiction].
      subst cache1. rewrite Nat.max_0_l. split; auto. lia.
    + destruct (Nx eq_refl) as [Hc [[P1 [P2 P3]]|[_ [P2 _]]]]; [|contradiction].
      subst cache1. rewrite Nat.max_0_l. split; auto. lia.
    + destruct (Nth m eq_refl) as [N1 [N2 [N3 [[k [Q1 Q2]]|[Q1 _]]]]]; [|contradiction].
      assert (m < length cache1)%nat by (apply nth_error_Some; congruence).
      assert (length cache <= length cache1)%nat.
      { rewrite N3. rewrite app_length. lia. }
      split; lia.
Qed.

Theorem pool_exhaustion_exact : forall w n newp lb p h xs p' o x p'',
  0 <= net_plen n ->
  create_pool w n newp lb = Some p ->
  pool_run w h p = (xs, p') -> all_served xs ->
  get_pool_prefix w o p' = (x, p'') ->
  exists skip, is_skip w newp lb skip /\
  let used := skip + Z.of_nat (nexts h) in
  (x = None <->
     match o with
     | PNth (S m) => (max_nth h < S m)%nat /\ 2 ^ (newp - net_plen n) < used + Z.of_nat (S m)
     | _ => 2 ^ (newp - net_plen n) < used + Z.of_nat (max_nth h) + 1
     end).
Proof.
  intros w n newp lb p h xs p' o x p'' H0 Hc H Sv G.
  apply create_pool_at in Hc. destruct Hc as [skip [Hs [Hle [At Hp]]]].
  assert (V : valid_pool w n newp) by (unfold valid_pool; lia).
  exists skip. split; auto.
  destruct (served_inv w n newp V h p skip [] xs p' At Hle H Sv) as [pos [cache [A1 [A2 [A3 A4]]]]].
  simpl in A3, A4. rewrite Nat.sub_0_r in A4.
  pose proof (step_spec w n newp o p' pos cache x p'' A1 G) as
      [pos1 [cache1 [At1 [Mono [Le1 [_ [Nx Nth]]]]]]].
  fold (cnt n newp). cbv zeta.
  destruct o as [|[|m]].
  - destruct (Nx eq_refl) as [Hc [[P1 [P2 P3]]|[P1 [P2 P3]]]]; subst x; split; intros Q; try discriminate; auto; lia.
  - destruct (Nx eq_refl) as [Hc [[P1 [P2 P3]]|[P1 [P2 P3]]]]; subst x; split; intros Q; try discriminate; auto; lia.
  - destruct (Nth m eq_refl) as [N1 [N2 [N3 [[k [Q1 Q2]]|[Q1 [Q2 Q3]]]]]]; subst x; split; intros Q; try discriminate; auto.
    + exfalso. assert (m < length cache1)%nat by (apply nth_error_Some; congruence).
      specialize (Le1 A2). lia.
    + specialize (Le1 A2).
      assert (length cache <= length cache1)%nat by (rewrite N3, app_length; lia).
      split; lia.
Qed.

Example pool_exhaustion_case :
  exists p xs p', create_pool 32 (mk_net 0 30) 32 false = Some p /\
    pool_run 32 [PNext; PNth 2] p = (xs, p') /\ all_served xs /\
    fst (get_pool_prefix 32 PNext p') = None.
Proof.
  eexists; eexists; eexists. split; [reflexivity|]. split; [vm_compute; reflexivity|].
  split; [|reflexivity].
  intros e [<-|[<-|[]]]; discriminate.
Qed.

(* once a request failed, sequential requests keep failing *)
Lemma exhausted_stays : forall w n newp (V : valid_pool w n newp) h p pos cache xs p',
  pool_at w n newp p pos cache -> cnt n newp <= pos ->
  pool_run w h p = (xs, p') ->
  forall o, is_next o = true -> forall x, In (o, x) xs -> x = None.
Proof.
  intros w n newp V. induction h as [|o h IH]; intros p pos cache xs p' At Ge H o' Hn x Hin.
  - simpl in H. inversion H; subst. contradiction.
  - cbn [pool_run] in H.
    destruct (get_pool_prefix w o p) as [x1 p1] eqn:Stp.
    destruct (pool_run w h p1) as [xs1 p2] eqn:R. inversion H; subst.
    pose proof (step_spec w n newp o p pos cache x1 p1 At Stp) as
      [pos1 [cache1 [At1 [Mono [Le1 [_ [Nx Nth]]]]]]].
    destruct Hin as [Heq|Hin].
    + inversion Heq; subst. destruct (Nx Hn) as [_ [[P1 _]|[_ [P2 _]]]]; auto. lia.
    + eapply (IH p1 pos1 cache1); eauto; lia.
Qed.

Theorem pool_failure_is_permanent : forall w n newp lb p h1 xs1 p1 o p2 h2 xs2 p3,
  0 <= net_plen n ->
  create_pool w n newp lb = Some p ->
  pool_run w h1 p = (xs1, p1) ->
  get_pool_prefix w o p1 = (None, p2) ->
  pool_run w h2 p2 = (xs2, p3) ->
  forall o' x, is_next o' = true -> In (o', x) xs2 -> x = None.
Proof.
  intros w n newp lb p h1 xs1 p1 o p2 h2 xs2 p3 H0 Hc H1 G H2 o' x Hn Hin.
  apply create_pool_at in Hc. destruct Hc as [skip [Hs [Hle [At Hp]]]].
  assert (V : valid_pool w n newp) by (unfold valid_pool; lia).
  assert (St : exists pos cache, pool_at w n newp p1 pos cache).
  { clear - V At H1. revert p skip xs1 p1 At H1. generalize (@nil Z) as cache.
    induction h1 as [|o h IH]; intros cache p pos xs p' At H.
    - simpl in H; inversion H; subst; eauto.
    - cbn [pool_run] in H. destruct (get_pool_prefix w o p) as [x1 p1] eqn:Stp.
      destruct (pool_run w h p1) as [xs1 p2] eqn:R. inversion H; subst.
      pose proof (step_spec w n newp o p pos cache x1 p1 At Stp) as [pos1 [cache1 [At1 _]]]. eauto. }
  destruct St as [pos [cache At1]].
  pose proof (step_spec w n newp o p1 pos cache None p2 At1 G) as
      [pos2 [cache2 [At2 [Mono [Le1 [_ [Nx Nth]]]]]]].
  assert (Ge : cnt n newp <= pos2).
  { destruct o as [|[|m]].
    - destruct (Nx eq_refl) as [_ [[_ [P2 _]]|[P1 [_ P3]]]]; [discriminate|lia].
    - destruct (Nx eq_refl) as [_ [[_ [P2 _]]|[P1 [_ P3]]]]; [discriminate|lia].
    - destruct (Nth m eq_refl) as [_ [_ [_ [[k [_ Q]]|[_ [_ Q]]]]]]; [discriminate|auto]. }
  eapply exhausted_stays; eauto.
Qed.

Example pool_failure_case :
  exists p p2, create_pool 32 (mk_net 0 31) 32 false = Some p /\
    snd (get_pool_prefix 32 (PNth 5) p) = p2 /\ fst (get_pool_prefix 32 (PNth 5) p) = None /\
    fst (pool_run 32 [PNext; PNth 1] p2) = [(PNext, None); (PNth 1, Some (mk_net 1 32))].
Proof. eexists; eexists. repeat split; vm_compute; reflexivity. Qed.

Print Assumptions pool_prefixes_disjoint.
Print Assumptions nth_prefix_function_of_n.
Print Assumptions loopback_address_function_of_id.
Print Assumptions nth_prefix_shifted_by_next_refuted.
Print Assumptions pool_exhaustion_exact.
Print Assumptions pool_failure_is_permanent.
