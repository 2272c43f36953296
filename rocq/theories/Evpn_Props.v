(* Properties C38, C64, C65 and C66: EVPN transit VNIs, asymmetric IRB and EVPN route distinguishers. *)
From Coq Require Import String Ascii ZArith Lia Bool List.
From Verif Require Import Base Mod_Model Mod_Props Vrf_Model Vrf_Props Evpn_Model.
Import ListNotations.
Open Scope Z_scope.

(* ------------------------------------------------------------------ *)
(* get_next_vni                                                         *)

Lemma next_vni_loop_ok : forall fuel s used n, next_vni_loop fuel s used = Some n ->
  s < n /\ ~ In n used /\ (forall y, s < y < n -> In y used).
Proof.
  induction fuel as [|f IH]; intros s used n H; cbn [next_vni_loop] in H; [discriminate|].
  destruct (memZ (s + 1) used) eqn:M.
  - apply IH in H. destruct H as [H1 [H2 H3]]. apply memZ_true in M. split; [lia|]. split; [auto|].
    intros y Hy. destruct (Z.eq_dec y (s + 1)) as [->|N]; auto. apply H3. lia.
  - injection H as <-. apply memZ_false in M. split; [lia|]. split; [auto|]. intros; lia.
Qed.

Lemma next_vni_loop_none : forall fuel s used, next_vni_loop fuel s used = None -> incl (zseq (s + 1) fuel) used.
Proof.
  induction fuel as [|f IH]; intros s used H; cbn [next_vni_loop] in H.
  - intros x [].
  - destruct (memZ (s + 1) used) eqn:M; [|discriminate]. apply memZ_true in M. apply IH in H.
    intros x Hx. cbn [zseq] in Hx. destruct Hx as [<-|Hx]; auto.
Qed.

Theorem get_next_vni_total : forall s used, exists n, get_next_vni s used = Some n /\
  s < n /\ ~ In n used /\ (forall y, s < y < n -> In y used).
Proof.
  intros s used. unfold get_next_vni. destruct (next_vni_loop (S (length used)) s used) as [n|] eqn:E.
  - exists n. split; auto. eapply next_vni_loop_ok; eauto.
  - exfalso. apply next_vni_loop_none in E.
    pose proof (NoDup_incl_length (zseq_NoDup (S (length used)) (s + 1)) E) as L.
    rewrite zseq_length in L. lia.
Qed.

(* ------------------------------------------------------------------ *)
(* Static VNIs                                                          *)

(* two different VRFs with static VNIs have different ones *)
Definition statics_distinct (d : tvrfs) : Prop :=
  forall a b x y, a <> b -> dget a d = Some (TInt x) -> dget b d = Some (TInt y) -> x <> y.

Lemma static_vnis_ok : forall d l l', static_vnis d l = (l', []) ->
  (forall z, In z l -> In z l')
  /\ (forall a x, dget a d = Some (TInt x) -> In x l' /\ ~ In x l)
  /\ statics_distinct d
  /\ (forall z, In z l' -> In z l \/ exists a, In (a, TInt z) d).
Proof.
  induction d as [|[k t] d IH]; intros l l' H; cbn [static_vnis] in H.
  - injection H as <-. split; [auto|]. split; [intros; discriminate|]. split; [intros a b x y _ C; discriminate|]. auto.
  - assert (Other : (forall n, t <> TInt n) -> static_vnis d l = (l', []) ->
      (forall z, In z l -> In z l') /\ (forall a x, dget a ((k, t) :: d) = Some (TInt x) -> In x l' /\ ~ In x l)
      /\ statics_distinct ((k, t) :: d) /\ (forall z, In z l' -> In z l \/ exists a, In (a, TInt z) ((k, t) :: d))).
    { intros Ht H'. apply IH in H'. destruct H' as [H1 [H2 [H3 H4]]]. split; [auto|]. split; [|split].
      - intros a x Ha. cbn [dget] in Ha. destruct (String.eqb a k); [exfalso; apply (Ht x); congruence|exact (H2 a x Ha)].
      - intros a b x y N Ha Hb. cbn [dget] in Ha, Hb. destruct (String.eqb a k); [exfalso; apply (Ht x); congruence|].
        destruct (String.eqb b k); [exfalso; apply (Ht y); congruence|]. eapply H3; eauto.
      - intros z Hz. apply H4 in Hz. destruct Hz as [Hz|[a Hz]]; auto. right. exists a. right. auto. }
    destruct t as [|b|n|s]; try (apply Other; [intros; discriminate|exact H]).
    destruct (memZ n l) eqn:M.
    + destruct (static_vnis d l) as [l0 e]. discriminate.
    + apply memZ_false in M. apply IH in H. destruct H as [H1 [H2 [H3 H4]]]. split; [|split; [|split]].
      * intros z Hz. apply H1. apply in_or_app. auto.
      * intros a x Ha. cbn [dget] in Ha. destruct (String.eqb a k).
        -- assert (n = x) by congruence. subst x. split; auto. apply H1. apply in_or_app. right. left. auto.
        -- apply H2 in Ha. destruct Ha as [Ha1 Ha2]. split; auto. intros C. apply Ha2. apply in_or_app. auto.
      * intros a b x y N Ha Hb E. subst y. cbn [dget] in Ha, Hb.
        destruct (String.eqb a k) eqn:Ea; destruct (String.eqb b k) eqn:Eb.
        -- apply String.eqb_eq in Ea. apply String.eqb_eq in Eb. congruence.
        -- assert (n = x) by congruence. subst x. apply H2 in Hb. apply (proj2 Hb). apply in_or_app. right. left. auto.
        -- assert (n = x) by congruence. subst x. apply H2 in Ha. apply (proj2 Ha). apply in_or_app. right. left. auto.
        -- eapply H3; eauto.
      * intros z Hz. apply H4 in Hz. destruct Hz as [Hz|[a Hz]].
        -- apply in_app_or in Hz. destruct Hz as [Hz|[<-|[]]]; auto. right. exists k. left. auto.
        -- right. exists a. right. auto.
Qed.

(* ------------------------------------------------------------------ *)
(* The second pass                                                      *)

Definition vni_set_rel (used : list Z) (start : Z) (a b : string * transit) : Prop :=
  fst b = fst a /\
  match snd a with
  | TBool true => exists m, snd b = TInt m /\ start <= m /\ (m = start \/ ~ In m used) /\ 4096 <= m <= 16777215
  | TBool false => snd b = TNone
  | TInt n => snd b = TInt n /\ 4096 <= n <= 16777215
  | t => snd b = t
  end.

Lemma vni_set_key : forall used start a b, vni_set_rel used start a b -> fst b = fst a.
Proof. intros used start a b [H _]. auto. Qed.

Lemma vni_set_up : forall used s s' a b, s < s' -> ~ In s' used -> vni_set_rel used s' a b -> vni_set_rel used s a b.
Proof.
  intros used s s' a b L N [H1 H2]. split; auto. destruct (snd a) as [|[|]|n|z]; auto.
  destruct H2 as [m [H2 [H3 [H4 H5]]]]. exists m. split; [auto|]. split; [lia|]. split; [|auto]. right.
  destruct H4 as [->|H4]; auto.
Qed.

Definition auto_vrf (d : tvrfs) (a : string) : Prop := dget a d = Some (TBool true).

Lemma range_spec : forall n, vni_in_range n = true <-> 4096 <= n <= 16777215.
Proof. intros n. unfold vni_in_range. rewrite andb_true_iff, !Z.leb_le. tauto. Qed.

Lemma set_vnis_ok : forall used d start d', set_vnis used d start = Some (d', []) ->
  Forall2 (vni_set_rel used start) d d'
  /\ (forall a b m, a <> b -> auto_vrf d a -> auto_vrf d b -> dget a d' = Some (TInt m) -> dget b d' <> Some (TInt m)).
Proof.
  intros used. induction d as [|[k t] d IH]; intros start d' H; cbn [set_vnis] in H.
  - injection H as <-. split; [constructor|]. intros a b m _ C. discriminate.
  - assert (Same : forall t', t <> TBool true ->
       (forall s, vni_set_rel used s (k, t) (k, t')) ->
       forall s' d'', (s' = start \/ (start < s' /\ ~ In s' used)) -> set_vnis used d s' = Some (d'', []) ->
       Forall2 (vni_set_rel used start) ((k, t) :: d) ((k, t') :: d'')
       /\ (forall a b m, a <> b -> auto_vrf ((k, t) :: d) a -> auto_vrf ((k, t) :: d) b ->
             dget a ((k, t') :: d'') = Some (TInt m) -> dget b ((k, t') :: d'') <> Some (TInt m))).
    { intros t' Nt R s' d'' Hs Hd. apply IH in Hd. destruct Hd as [H1 H2]. split.
      - constructor; auto. destruct Hs as [->|[Hs1 Hs2]]; auto. eapply F2_impl; [|exact H1].
        intros a b. apply vni_set_up; auto.
      - intros a b m N Aa Ab Da. unfold auto_vrf in *. cbn [dget] in *.
        destruct (String.eqb a k); [congruence|]. destruct (String.eqb b k); [congruence|]. eapply H2; eauto. }
    destruct t as [|[|]|n|s].
    + destruct (set_vnis used d start) as [[r' e']|] eqn:E; [|discriminate]. injection H as <- ->.
      eapply Same; eauto; [discriminate|]. intros s. split; reflexivity.
    + destruct (vni_in_range start) eqn:Rg.
      * destruct (get_next_vni_total start used) as [s' [Es [L [N _]]]]. rewrite Es in H.
        destruct (set_vnis used d s') as [[r' e']|] eqn:E; [|discriminate]. injection H as <- ->.
        apply IH in E. destruct E as [H1 H2]. apply range_spec in Rg. split.
        -- constructor.
           ++ split; [reflexivity|]. exists start. split; [reflexivity|]. split; [lia|]. auto.
           ++ eapply F2_impl; [|exact H1]. intros a b. apply vni_set_up; auto.
        -- assert (Tail : forall b m, auto_vrf d b -> dget b r' = Some (TInt m) -> start < m).
           { intros b m Ab Db. destruct (F2_dget _ _ _ _ _ _ _ (vni_set_key _ _) H1 Db) as [x [X1 [_ X2]]].
             unfold auto_vrf in Ab. assert (x = TBool true) by congruence. subst x. cbn [snd] in X2.
             destruct X2 as [m' [X2 [X3 _]]]. injection X2 as <-. lia. }
           intros a b m Nab Aa Ab Da Db. unfold auto_vrf in Aa, Ab. cbn [dget] in *.
           destruct (String.eqb a k) eqn:Ea; destruct (String.eqb b k) eqn:Eb.
           ++ apply String.eqb_eq in Ea. apply String.eqb_eq in Eb. congruence.
           ++ injection Da as <-. apply (Tail b) in Db; auto. lia.
           ++ injection Db as <-. apply (Tail a) in Da; auto. lia.
           ++ eapply H2; eauto.
      * destruct (set_vnis used d start) as [[r' e']|]; discriminate.
    + destruct (set_vnis used d start) as [[r' e']|] eqn:E; [|discriminate]. injection H as <- ->.
      eapply Same; eauto; [discriminate|]. intros s. split; reflexivity.
    + destruct (vni_in_range n) eqn:Rg.
      * apply range_spec in Rg. destruct (n =? start) eqn:En.
        -- destruct (get_next_vni_total start used) as [s' [Es [L [N _]]]]. rewrite Es in H.
           destruct (set_vnis used d s') as [[r' e']|] eqn:E; [|discriminate]. injection H as <- ->.
           eapply Same; eauto; [discriminate|]. intros s. split; [reflexivity|]. cbn [snd]. auto.
        -- destruct (set_vnis used d start) as [[r' e']|] eqn:E; [|discriminate]. injection H as <- ->.
           eapply Same; eauto; [discriminate|]. intros s. split; [reflexivity|]. cbn [snd]. auto.
      * destruct (set_vnis used d start) as [[r' e']|]; discriminate.
    + destruct (set_vnis used d start) as [[r' e']|] eqn:E; [|discriminate]. injection H as <- ->.
      eapply Same; eauto; [discriminate|]. intros z. split; reflexivity.
Qed.

(* no automatic VRF is listed before a VRF with the static VNI n *)
Definition static_first (n : Z) (d : tvrfs) : Prop :=
  forall pre k post, d = pre ++ (k, TInt n) :: post -> forall a, ~ In (a, TBool true) pre.

Lemma set_vnis_static_first : forall used d start d', set_vnis used d start = Some (d', []) ->
  static_first start d -> (In start used -> exists k, In (k, TInt start) d) ->
  forall a m, auto_vrf d a -> dget a d' = Some (TInt m) -> ~ In m used.
Proof.
  intros used. induction d as [|[k t] d IH]; intros start d' H SF U a m Aa Da; [discriminate|].
  cbn [set_vnis] in H.
  assert (SF' : (forall b, t <> TBool b \/ b = false) -> static_first start d).
  { intros Ht pre k' post E b C. apply (SF ((k, t) :: pre) k' post) with (a := b).
    - rewrite E. reflexivity.
    - right. auto. }
  assert (Cont : forall t', t <> TBool true -> t <> TInt start -> forall d'', set_vnis used d start = Some (d'', []) ->
            d' = (k, t') :: d'' -> ~ In m used).
  { intros t' N1 N2 d'' E E'. subst d'. unfold auto_vrf in Aa. cbn [dget] in *.
    destruct (String.eqb a k); [congruence|]. eapply IH; eauto.
    - apply SF'. intros [|]; auto.
    - intros C. destruct (U C) as [k' [C'|C']]; [congruence|eauto]. }
  destruct t as [|[|]|n|s].
  - destruct (set_vnis used d start) as [[r' e']|] eqn:E; [|discriminate]. injection H as <- ->.
    eapply Cont; eauto; discriminate.
  - destruct (vni_in_range start) eqn:Rg.
    + destruct (get_next_vni_total start used) as [s' [Es [L [N _]]]]. rewrite Es in H.
      destruct (set_vnis used d s') as [[r' e']|] eqn:E; [|discriminate]. injection H as <- ->.
      assert (Ns : ~ In start used).
      { intros C. destruct (U C) as [k' [C'|C']]; [discriminate|].
        apply in_split in C'. destruct C' as [pre [post C']]. subst d.
        apply (SF ((k, TBool true) :: pre) k' post eq_refl k). left. auto. }
      unfold auto_vrf in Aa. cbn [dget] in *. destruct (String.eqb a k).
      * injection Da as <-. auto.
      * apply set_vnis_ok in E. destruct E as [F _].
        destruct (F2_dget _ _ _ _ _ _ _ (vni_set_key _ _) F Da) as [x [X1 [_ X2]]].
        assert (x = TBool true) by congruence. subst x. cbn [snd] in X2.
        destruct X2 as [m' [X2 [_ [X3 _]]]]. injection X2 as <-. destruct X3 as [->|X3]; auto.
    + destruct (set_vnis used d start) as [[r' e']|]; discriminate.
  - destruct (set_vnis used d start) as [[r' e']|] eqn:E; [|discriminate]. injection H as <- ->.
    eapply Cont; eauto; discriminate.
  - destruct (vni_in_range n) eqn:Rg.
    + destruct (Z.eqb_spec n start) as [->|En].
      * destruct (get_next_vni_total start used) as [s' [Es [L [N _]]]]. rewrite Es in H.
        destruct (set_vnis used d s') as [[r' e']|] eqn:E; [|discriminate]. injection H as <- ->.
        unfold auto_vrf in Aa. cbn [dget] in *. destruct (String.eqb a k); [discriminate|].
        apply set_vnis_ok in E. destruct E as [F _].
        destruct (F2_dget _ _ _ _ _ _ _ (vni_set_key _ _) F Da) as [x [X1 [_ X2]]].
        assert (x = TBool true) by congruence. subst x. cbn [snd] in X2.
        destruct X2 as [m' [X2 [_ [X3 _]]]]. injection X2 as <-. destruct X3 as [->|X3]; auto.
      * destruct (set_vnis used d start) as [[r' e']|] eqn:E; [|discriminate]. injection H as <- ->.
        eapply Cont; eauto; [discriminate|congruence].
    + destruct (set_vnis used d start) as [[r' e']|]; discriminate.
  - destruct (set_vnis used d start) as [[r' e']|] eqn:E; [|discriminate]. injection H as <- ->.
    eapply Cont; eauto; discriminate.
Qed.

(* ------------------------------------------------------------------ *)
(* The third pass                                                       *)

Lemma share_vnis_ok : forall todo cur c, share_vnis todo cur = (c, []) ->
  (forall k, (forall s, dget k cur <> Some (TStr s)) -> dget k c = dget k cur)
  /\ (forall k s, In k todo -> dget k cur = Some (TStr s) -> exists n, dget k c = Some (TInt n) /\ dget s c = Some (TInt n)).
Proof.
  induction todo as [|k todo IH]; intros cur c H; cbn [share_vnis] in H.
  - injection H as <-. split; [auto|]. intros k s [].
  - assert (Skip : (forall s, dget k cur <> Some (TStr s)) -> share_vnis todo cur = (c, []) ->
       (forall k0, (forall s, dget k0 cur <> Some (TStr s)) -> dget k0 c = dget k0 cur)
       /\ (forall k0 s, In k0 (k :: todo) -> dget k0 cur = Some (TStr s) -> exists n, dget k0 c = Some (TInt n) /\ dget s c = Some (TInt n))).
    { intros N E. apply IH in E. destruct E as [E1 E2]. split; auto. intros k0 s [<-|Hk] D; [exfalso; eapply N; eauto|eauto]. }
    destruct (dget k cur) as [[|b|n|s]|] eqn:D; try (apply Skip; [intros; congruence|exact H]).
    destruct (dget s cur) as [[|b|n|z]|] eqn:Ds; try (destruct (share_vnis todo cur) as [c0 e0]; discriminate).
    apply IH in H. destruct H as [H1 H2].
    assert (Nk : s <> k) by congruence.
    assert (Dk : dget k c = Some (TInt n)).
    { rewrite (H1 k); rewrite dget_dset_same; auto. intros; discriminate. }
    split.
    + intros k0 Hk0. destruct (string_dec k0 k) as [->|N]; [exfalso; eapply Hk0; eauto|].
      rewrite (H1 k0); rewrite dget_dset_other; auto.
    + intros k0 s0 Hin D0. destruct (string_dec k0 k) as [->|N].
      * assert (s0 = s) by congruence. subst s0. exists n. split; auto.
        rewrite (H1 s); rewrite dget_dset_other; auto. intros z C. congruence.
      * destruct Hin as [C|Hin]; [congruence|]. apply H2; auto. rewrite dget_dset_other; auto.
Qed.

(* ------------------------------------------------------------------ *)
(* C38                                                                  *)

(* VRFs having their own transit VNI: static or automatic *)
Definition own_vni (t : transit) : Prop := match t with TBool true => True | TInt _ => True | _ => False end.

Lemma transit_stages : forall start d d', vrf_transit_vni start d = Some (d', []) ->
  (exists k t, dget k d = Some t /\ t <> TNone) ->
  exists used d1, static_vnis d [] = (used, []) /\ set_vnis used d start = Some (d1, [])
    /\ share_vnis (dkeys d1) d1 = (d', []).
Proof.
  intros start d d' H [k [t [Hk Ht]]]. unfold vrf_transit_vni in H.
  destruct (static_vnis d []) as [used e1] eqn:E1.
  destruct (vni_count d) eqn:C.
  - exfalso. unfold vni_count in C. apply length_zero_iff_nil in C. apply dget_In in Hk.
    assert (In (k, t) (filter (fun kv : string * transit => match snd kv with TNone => false | _ => true end) d)).
    { apply filter_In. split; auto. cbn [snd]. destruct t; auto; congruence. }
    rewrite C in H0. destruct H0.
  - destruct (set_vnis used d start) as [[d1 e2]|] eqn:E2; [|discriminate].
    destruct (share_vnis (dkeys d1) d1) as [d2 e3] eqn:E3. injection H as <- He.
    apply app_eq_nil in He. destruct He as [-> He]. apply app_eq_nil in He. destruct He as [-> ->]. eauto.
Qed.

(* The model never runs out of fuel. *)
Theorem vrf_transit_vni_total : forall start d, vrf_transit_vni start d <> None.
Proof.
  assert (S : forall used d start, set_vnis used d start <> None).
  { intros used. induction d as [|[k t] d IH]; intros start; cbn [set_vnis]; [discriminate|].
    destruct (get_next_vni_total start used) as [s' [Es _]].
    destruct t as [|[|]|n|s]; rewrite ?Es; try destruct (vni_in_range _); try destruct (n =? start);
      match goal with |- context [set_vnis used d ?x] => specialize (IH x); destruct (set_vnis used d x) as [[? ?]|] end;
      congruence. }
  intros start d. unfold vrf_transit_vni. destruct (static_vnis d []) as [used e1]. destruct (vni_count d); [discriminate|].
  specialize (S used d start). destruct (set_vnis used d start) as [[d1 e2]|]; [|congruence].
  destruct (share_vnis (dkeys d1) d1). discriminate.
Qed.

(* Two VRFs with their own transit VNIs have different ones unless an automatic one is the start value
   and equal to a static one; automatic and static VNIs are valid, static VNIs are kept. *)
Theorem transit_vnis_unique : forall start d d' a b ta tb x y,
  vrf_transit_vni start d = Some (d', []) -> a <> b ->
  dget a d = Some ta -> dget b d = Some tb -> own_vni ta -> own_vni tb ->
  dget a d' = Some (TInt x) -> dget b d' = Some (TInt y) ->
  x <> y \/ (x = start /\ y = start /\ ((ta = TBool true /\ tb = TInt start) \/ (ta = TInt start /\ tb = TBool true))).
Proof.
  intros start d d' a b ta tb x y H N Da Db Oa Ob Xa Xb.
  destruct (transit_stages _ _ _ H) as [used [d1 [E1 [E2 E3]]]].
  { exists a, ta. split; auto. intros C. subst. contradiction. }
  apply static_vnis_ok in E1. destruct E1 as [_ [S1 [S2 _]]].
  apply set_vnis_ok in E2. destruct E2 as [F U]. apply share_vnis_ok in E3. destruct E3 as [K _].
  assert (One : forall k t z, dget k d = Some t -> own_vni t -> dget k d' = Some (TInt z) ->
     dget k d1 = Some (TInt z) /\ ((t = TBool true /\ (z = start \/ ~ In z used)) \/ (t = TInt z /\ In z used))).
  { intros k t z Dk Ok Xk. destruct (F2_dget_fwd _ _ _ _ _ _ _ (vni_set_key _ _) F Dk) as [t1 [D1 [_ R]]]. cbn [snd] in R.
    assert (Dk' : forall s, dget k d1 <> Some (TStr s)).
    { intros s C. assert (t1 = TStr s) by congruence. subst t1. destruct t as [|[|]|n|w]; try contradiction.
      - destruct R as [m [R _]]. discriminate.
      - destruct R as [R _]. discriminate. }
    rewrite (K k Dk') in Xk. split; [auto|]. assert (t1 = TInt z) by congruence. subst t1.
    destruct t as [|[|]|n|w]; try contradiction.
    - left. split; [auto|]. destruct R as [m [R [_ [R2 _]]]]. injection R as <-. auto.
    - right. destruct R as [R _]. injection R as <-. split; [auto|]. apply (S1 k). auto. }
  destruct (One a ta x Da Oa Xa) as [Xa1 Ca]. destruct (One b tb y Db Ob Xb) as [Xb1 Cb].
  destruct Ca as [[-> Ca]|[-> Ca]]; destruct Cb as [[-> Cb]|[-> Cb]].
  - left. intros ->. eapply (U a b); eauto.
  - destruct (Z.eq_dec x y) as [->|Nxy]; auto. right. destruct Ca as [->|Ca]; [|contradiction]. split; [auto|]. split; [auto|]. auto.
  - destruct (Z.eq_dec x y) as [->|Nxy]; auto. right. destruct Cb as [->|Cb]; [|contradiction]. split; [auto|]. split; [auto|]. auto.
  - left. eapply S2; eauto.
Qed.

(* All transit VNIs are different when no automatic VRF is listed before a VRF with a static transit
   VNI equal to the start value. *)
Theorem transit_vnis_all_unique : forall start d d' a b ta tb x y,
  vrf_transit_vni start d = Some (d', []) -> static_first start d -> a <> b ->
  dget a d = Some ta -> dget b d = Some tb -> own_vni ta -> own_vni tb ->
  dget a d' = Some (TInt x) -> dget b d' = Some (TInt y) -> x <> y.
Proof.
  intros start d d' a b ta tb x y H SF N Da Db Oa Ob Xa Xb.
  destruct (transit_vnis_unique _ _ _ _ _ _ _ _ _ H N Da Db Oa Ob Xa Xb) as [U|[E1 [E2 C]]]; auto. exfalso. subst x y.
  destruct (transit_stages _ _ _ H) as [used [d1 [S1 [S2 S3]]]].
  { exists a, ta. split; auto. intros C'. subst. contradiction. }
  apply static_vnis_ok in S1. destruct S1 as [_ [S1 [_ S1']]].
  assert (UU : In start used -> exists k, In (k, TInt start) d).
  { intros C'. apply S1' in C'. destruct C' as [[]|C']. auto. }
  pose proof (set_vnis_static_first _ _ _ _ S2 SF UU) as Q.
  apply set_vnis_ok in S2. destruct S2 as [F _]. apply share_vnis_ok in S3. destruct S3 as [K _].
  assert (D1 : forall k, auto_vrf d k -> dget k d' = Some (TInt start) -> dget k d1 = Some (TInt start)).
  { intros k Ak Xk. destruct (F2_dget_fwd _ _ _ _ _ _ _ (vni_set_key _ _) F Ak) as [t1 [E [_ [m [R _]]]]]. cbn [snd] in R. subst t1.
    rewrite (K k) in Xk; auto. intros s C'. congruence. }
  destruct C as [[-> ->]|[-> ->]].
  - apply (Q a start Da); auto. apply (S1 b). auto.
  - apply (Q b start Db); auto. apply (S1 a). auto.
Qed.

(* Static VNIs are kept, automatic ones are assigned from the start value up, and all of them are valid. *)
Theorem transit_vnis_assigned : forall start d d' k t,
  vrf_transit_vni start d = Some (d', []) -> dget k d = Some t ->
  match t with
  | TInt n => dget k d' = Some (TInt n) /\ 4096 <= n <= 16777215
  | TBool true => exists n, dget k d' = Some (TInt n) /\ start <= n /\ 4096 <= n <= 16777215
  | TStr s => exists n, dget k d' = Some (TInt n) /\ dget s d' = Some (TInt n)
  | _ => dget k d' = Some TNone \/ dget k d' = None
  end.
Proof.
  intros start d d' k t H Dk.
  assert (Dec : t = TNone \/ t <> TNone) by (destruct t; auto; right; discriminate).
  destruct Dec as [->|Nt].
  - unfold vrf_transit_vni in H. destruct (static_vnis d []) as [used e1] eqn:E1. destruct (vni_count d) eqn:C.
    + injection H as <- ->. auto.
    + destruct (set_vnis used d start) as [[d1 e2]|] eqn:E2; [|discriminate].
      destruct (share_vnis (dkeys d1) d1) as [d2 e3] eqn:E3. injection H as <- He.
      apply app_eq_nil in He. destruct He as [-> He]. apply app_eq_nil in He. destruct He as [-> ->].
      apply set_vnis_ok in E2. destruct E2 as [F _]. apply share_vnis_ok in E3. destruct E3 as [K _].
      destruct (F2_dget_fwd _ _ _ _ _ _ _ (vni_set_key _ _) F Dk) as [t1 [D1 [_ R]]]. cbn [snd] in R. subst t1.
      left. rewrite K; auto. intros s C'. congruence.
  - destruct (transit_stages _ _ _ H) as [used [d1 [S1 [S2 S3]]]]; [eauto|].
    apply set_vnis_ok in S2. destruct S2 as [F _]. apply share_vnis_ok in S3. destruct S3 as [K1 K2].
    destruct (F2_dget_fwd _ _ _ _ _ _ _ (vni_set_key _ _) F Dk) as [t1 [D1 [_ R]]]. cbn [snd] in R.
    destruct t as [|[|]|n|s]; [congruence| | | |].
    + destruct R as [m [-> [R1 [_ R2]]]]. exists m. split; [|auto]. rewrite K1; auto. intros s C. congruence.
    + subst t1. left. rewrite K1; auto. intros s C. congruence.
    + destruct R as [-> R]. split; [|auto]. rewrite K1; auto. intros s C. congruence.
    + subst t1. apply K2; auto. eapply dget_Some_key; eauto.
Qed.

Example transit_case :
  vrf_transit_vni 200000 [("a", TInt 200001); ("b", TBool true); ("c", TStr "b"); ("d", TBool true); ("e", TNone); ("f", TBool false)]%string
  = Some ([("a", TInt 200001); ("b", TInt 200000); ("c", TInt 200000); ("d", TInt 200002); ("e", TNone); ("f", TNone)]%string, []).
Proof. reflexivity. Qed.

Example transit_case_first :
  let d := [("a", TInt 200000); ("b", TBool true); ("c", TBool true)]%string in
  static_first 200000 d
  /\ vrf_transit_vni 200000 d = Some ([("a", TInt 200000); ("b", TInt 200001); ("c", TInt 200002)]%string, []).
Proof.
  split; [|reflexivity]. intros pre k post E a C. destruct pre as [|p1 [|p2 [|p3 [|p4 pre]]]]; cbn in E; try discriminate.
  destruct C.
Qed.

(* A static transit VNI equal to the start value listed after an automatic VRF is also given to that VRF. *)
Theorem transit_vni_start_refuted : exists d d',
  vrf_transit_vni 200000 d = Some (d', [])
  /\ dget "a"%string d = Some (TBool true) /\ dget "b"%string d = Some (TInt 200000)
  /\ dget "a"%string d' = dget "b"%string d'.
Proof.
  exists [("a", TBool true); ("b", TInt 200000)]%string. eexists. split; [vm_compute; reflexivity|]. repeat split.
Qed.

(* A chain of references to other VRFs is accepted or rejected depending on the order of VRFs. *)
Theorem transit_reference_order_refuted : exists d1 d2,
  (forall k, dget k d1 = dget k d2)
  /\ (exists r, vrf_transit_vni 200000 d1 = Some (r, []))
  /\ (exists r, vrf_transit_vni 200000 d2 = Some (r, [TvNoVni "a"%string])).
Proof.
  exists [("c", TBool true); ("b", TStr "c"); ("a", TStr "b")]%string, [("a", TStr "b"); ("b", TStr "c"); ("c", TBool true)]%string.
  split; [|split; eexists; reflexivity].
  intros k. cbn [dget]. destruct (String.eqb_spec k "a"); destruct (String.eqb_spec k "b"); destruct (String.eqb_spec k "c"); congruence.
Qed.

(* ------------------------------------------------------------------ *)
(* C64: transit VNIs and VLAN VNIs                                      *)

(* Static transit VNIs are accepted exactly when they differ from each other and from the VNIs used
   so far (static VLAN VNIs and the VNIs of VXLAN VLANs). *)
Theorem static_transit_registered : forall d used used' errs, NoDup (dkeys d) ->
  register_static_transit_vni d used = (used', errs) ->
  (errs = [] <-> statics_distinct d /\ forall a x, dget a d = Some (TInt x) -> ~ In x used)
  /\ (forall z, In z used' <-> In z used \/ exists a, dget a d = Some (TInt z)).
Proof.
  induction d as [|[k t] d IH]; intros used used' errs ND H; cbn [register_static_transit_vni] in H.
  - injection H as <- <-. split.
    + split; [|auto]. intros _. split; [intros a b x y _ C; discriminate|intros; discriminate].
    + intros z. split; auto. intros [Hz|[a C]]; [auto|discriminate].
  - cbn [dkeys map fst] in ND. inversion ND as [|? ? Nk ND']; subst.
    assert (Dk : dget k d = None) by (apply dget_None; auto).
    assert (Other : (forall n, t <> TInt n) -> register_static_transit_vni d used = (used', errs) ->
      (errs = [] <-> statics_distinct ((k, t) :: d) /\ forall a x, dget a ((k, t) :: d) = Some (TInt x) -> ~ In x used)
      /\ (forall z, In z used' <-> In z used \/ exists a, dget a ((k, t) :: d) = Some (TInt z))).
    { intros Ht E. apply IH in E; auto. destruct E as [E1 E2].
      assert (G : forall a x, dget a ((k, t) :: d) = Some (TInt x) <-> dget a d = Some (TInt x)).
      { intros a x. cbn [dget]. destruct (String.eqb_spec a k) as [->|N]; [|tauto].
        split; [intros C; exfalso; apply (Ht x); congruence|congruence]. }
      split.
      - rewrite E1. unfold statics_distinct. split; intros [P1 P2]; (split; [intros a b x y N Ha Hb|intros a x Ha]).
        + apply G in Ha. apply G in Hb. eapply P1; eauto.
        + apply G in Ha. eapply P2; eauto.
        + apply G in Ha. apply G in Hb. eapply P1; eauto.
        + apply G in Ha. eapply P2; eauto.
      - intros z. rewrite E2. split; intros [Hz|[a Ha]]; auto; right; exists a; apply G; auto. }
    destruct t as [|b|n|s]; try (apply Other; [intros; discriminate|exact H]).
    destruct (memZ n used) eqn:M.
    + apply memZ_true in M. destruct (register_static_transit_vni d used) as [u e] eqn:E. injection H as <- <-.
      apply IH in E; auto. destruct E as [_ E2]. split.
      * split; [discriminate|]. intros [_ C]. exfalso. apply (C k n); auto. cbn [dget]. rewrite String.eqb_refl. auto.
      * intros z. rewrite E2. split; intros [Hz|[a Ha]]; auto.
        -- right. exists a. cbn [dget]. destruct (String.eqb_spec a k) as [->|N]; [congruence|auto].
        -- cbn [dget] in Ha. destruct (String.eqb a k); [left; congruence|eauto].
    + apply memZ_false in M. apply IH in H; auto. destruct H as [E1 E2]. split.
      * rewrite E1. split.
        -- intros [P1 P2]. split.
           ++ intros a b x y N Ha Hb Exy. subst y. cbn [dget] in Ha, Hb.
              destruct (String.eqb_spec a k) as [->|Na]; destruct (String.eqb_spec b k) as [->|Nb].
              ** congruence.
              ** assert (n = x) by congruence. subst x. apply (P2 b n Hb). left. auto.
              ** assert (n = x) by congruence. subst x. apply (P2 a n Ha). left. auto.
              ** apply (P1 a b x x N Ha Hb). reflexivity.
           ++ intros a x Ha. cbn [dget] in Ha. destruct (String.eqb a k); [congruence|].
              intros C. apply (P2 a x Ha). right. auto.
        -- intros [P1 P2]. assert (G : forall a x, dget a d = Some (TInt x) -> dget a ((k, TInt n) :: d) = Some (TInt x)).
           { intros a x Ha. cbn [dget]. destruct (String.eqb_spec a k) as [->|N]; [congruence|auto]. }
           split.
           ++ intros a b x y N Ha Hb. apply (P1 a b x y N); auto.
           ++ intros a x Ha [C|C]; [|eapply (P2 a x); eauto].
              apply (P1 k a n x); auto; [congruence|]. cbn [dget]. rewrite String.eqb_refl. auto.
      * intros z. rewrite E2. split.
        -- intros [[<-|Hz]|[a Ha]]; auto.
           ++ right. exists k. cbn [dget]. rewrite String.eqb_refl. auto.
           ++ right. exists a. cbn [dget]. destruct (String.eqb_spec a k) as [->|N]; [congruence|auto].
        -- intros [Hz|[a Ha]]; [left; right; auto|]. cbn [dget] in Ha. destruct (String.eqb a k).
           ++ left. left. congruence.
           ++ right. eauto.
Qed.

(* Automatic transit VNIs are not compared with the VNIs of VLANs. *)
Theorem auto_transit_vlan_vni_refuted : exists d d' vlan_vni,
  register_static_transit_vni d [vlan_vni] = ([vlan_vni], [])
  /\ vrf_transit_vni 200000 d = Some (d', [])
  /\ dget "red"%string d = Some (TBool true) /\ dget "red"%string d' = Some (TInt vlan_vni).
Proof.
  exists [("red", TBool true)]%string. eexists. exists 200000. split; [reflexivity|]. split; [vm_compute; reflexivity|]. split; reflexivity.
Qed.

(* ------------------------------------------------------------------ *)
(* C65: VLANs needed for asymmetric IRB                                 *)

Definition vlan_of_vrf (x : avlan) (vrf_name : string) : Prop := av_vrf x = Some vrf_name.

Lemma occurs_refl : forall s, occurs s s.
Proof. intros s. exists EmptyString, EmptyString. cbn. induction s as [|c s IH]; cbn; auto. f_equal. auto. Qed.

(* All EVPN VLANs of the VRF that are not present on the node are reported. *)
Theorem asym_vlans_reported : forall vrf vlans node_vlans v x,
  In (v, x) vlans -> vlan_of_vrf x vrf -> av_evpn x = true -> ~ In v node_vlans -> In v (check_asym_vlan vrf vlans node_vlans).
Proof.
  intros vrf vlans nv v x H V E N. unfold check_asym_vlan. apply in_map_iff. exists (v, x). split; auto.
  apply filter_In. split; auto. cbn [fst snd]. rewrite V, E. apply memS_false in N. rewrite N.
  cbn [negb]. rewrite !andb_true_r. apply contains_spec. apply occurs_refl.
Qed.

(* The reported VLANs are EVPN VLANs missing on the node; their VRF has a name containing the VRF name. *)
Theorem asym_vlans_sound : forall vrf vlans node_vlans v,
  In v (check_asym_vlan vrf vlans node_vlans) ->
  exists x, In (v, x) vlans /\ av_evpn x = true /\ ~ In v node_vlans
    /\ (vrf <> EmptyString -> exists name, av_vrf x = Some name /\ occurs vrf name).
Proof.
  intros vrf vlans nv v H. unfold check_asym_vlan in H. apply in_map_iff in H. destruct H as [[v' x] [E H]].
  cbn [fst] in E. subst v'. apply filter_In in H. destruct H as [H1 H2]. cbn [fst snd] in H2.
  apply andb_true_iff in H2. destruct H2 as [H2 H4]. apply andb_true_iff in H2. destruct H2 as [H2 H3].
  exists x. split; auto. split; auto. split.
  - apply memS_false. destruct (memS v nv); auto.
  - intros Nv. apply contains_spec in H2. destruct (av_vrf x) as [name|]; [eauto|].
    exfalso. destruct H2 as [a [b E]]. destruct a; destruct vrf; cbn in E; try discriminate. congruence.
Qed.

(* A VLAN of another VRF is reported when its VRF name contains the name of the checked VRF. *)
Theorem asym_vlans_exact_refuted : exists vlans v x,
  In (v, x) vlans /\ ~ vlan_of_vrf x "red" /\ In v (check_asym_vlan "red" vlans []).
Proof.
  exists [("v1", mk_avlan (Some "redundant") true)]%string, "v1"%string, (mk_avlan (Some "redundant"%string) true).
  split; [left; auto|]. split; [intros C; discriminate|]. left. reflexivity.
Qed.

Example asym_case : check_asym_vlan "red" [("v1", mk_avlan (Some "red") true); ("v2", mk_avlan (Some "red") true); ("v3", mk_avlan (Some "blue") true); ("v4", mk_avlan None true)]%string ["v1"]%string
  = ["v2"]%string.
Proof. reflexivity. Qed.

(* ------------------------------------------------------------------ *)
(* C66: route distinguishers of EVPN instances                          *)

(* The EVI is the configured one or the VLAN id / VRF id; without configured RDs two instances of a
   node have the same RD exactly when they have the same EVI. *)
Definition effective_evi (is_vrf : bool) (x : einst) : Z :=
  match ei_evi x with
  | Some e => if is_vrf then e else if e =? 0 then ei_id x else e
  | None => ei_id x
  end.

Theorem evpn_rd_unique : forall rid vlans vrfs k1 k2 x1 x2 (b1 b2 : bool) r1 r2,
  In (k1, x1) (if b1 then vrfs else vlans) -> In (k2, x2) (if b2 then vrfs else vlans) ->
  ei_rd x1 = None -> ei_rd x2 = None ->
  NoDup (dkeys vlans) -> NoDup (dkeys vrfs) ->
  In ((b1, k1), r1) (node_evpn_rds rid vlans vrfs) -> In ((b2, k2), r2) (node_evpn_rds rid vlans vrfs) ->
  (r1 = r2 <-> effective_evi b1 x1 = effective_evi b2 x2).
Proof.
  intros rid vlans vrfs k1 k2 x1 x2 b1 b2 r1 r2 H1 H2 N1 N2 NDl NDr R1 R2.
  assert (K : forall (b : bool) k x r, In (k, x) (if b then vrfs else vlans) -> ei_rd x = None ->
     In ((b, k), r) (node_evpn_rds rid vlans vrfs) -> r = Some (fmt_rd rid (effective_evi b x))).
  { intros b k x r H N R. unfold node_evpn_rds in R. apply in_app_or in R.
    assert (Rb : In ((b, k), r) (map (fun kv : string * einst => ((b, fst kv), local_rd rid ((if b then vrf_evi else vlan_evi) (snd kv)))) (if b then vrfs else vlans))).
    { destruct R as [R|R]; apply in_map_iff in R; destruct R as [[k' x'] [R1' R2']]; cbn [fst snd] in R1'; injection R1' as <- <- <-;
        apply in_map_iff; exists (k', x'); auto. }
    apply in_map_iff in Rb. destruct Rb as [[k' x'] [E Hin]]. cbn [fst snd] in E. injection E as -> <-.
    assert (x' = x).
    { assert (NDb : NoDup (dkeys (if b then vrfs else vlans))) by (destruct b; auto).
      apply (dget_NoDup _ _ _ NDb) in H. apply (dget_NoDup _ _ _ NDb) in Hin. congruence. }
    subst x'. unfold local_rd, effective_evi. destruct b; cbn [vrf_evi vlan_evi ei_evi ei_rd ei_id]; rewrite N.
    - destruct (ei_evi x); auto.
    - destruct (ei_evi x) as [[|p|p]|]; auto. }
  rewrite (K _ _ _ _ H1 N1 R1), (K _ _ _ _ H2 N2 R2). split.
  - intros E. injection E as E. eapply fmt_rd_inj; eauto.
  - intros ->. auto.
Qed.

(* A VLAN and a VRF with the same id get the same RD on a node. *)
Theorem evpn_rd_unique_refuted : exists rid vlans vrfs r,
  In ((false, "v"%string), r) (node_evpn_rds rid vlans vrfs) /\ In ((true, "red"%string), r) (node_evpn_rds rid vlans vrfs).
Proof.
  exists "10.0.0.1"%string, [("v"%string, mk_einst 7 None None)], [("red"%string, mk_einst 7 None None)], (Some "10.0.0.1:7"%string).
  split; [left|right; left]; reflexivity.
Qed.

Print Assumptions get_next_vni_total.
Print Assumptions vrf_transit_vni_total.
Print Assumptions transit_vnis_unique.
Print Assumptions transit_vnis_all_unique.
Print Assumptions transit_vnis_assigned.
Print Assumptions transit_vni_start_refuted.
Print Assumptions transit_reference_order_refuted.
Print Assumptions static_transit_registered.
Print Assumptions auto_transit_vlan_vni_refuted.
Print Assumptions asym_vlans_reported.
Print Assumptions asym_vlans_sound.
Print Assumptions asym_vlans_exact_refuted.
Print Assumptions evpn_rd_unique.
Print Assumptions evpn_rd_unique_refuted.
