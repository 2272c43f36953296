(* Properties of daemons, module support lists, device checks and tools. *)
From Coq Require Import String Ascii ZArith Lia Bool List.
From Verif Require Import Base Box_Model Clone_Model Dev_Model Mod_Model Ndev_Model Dfl_Model Box_Props Dev_Props Mod_Props Ndev_Props Pol_Props Evs_Props.
Import ListNotations.
Local Open Scope string_scope.
Local Open Scope list_scope.

(* ------------------------------------------------------------------ *)
(* C216: modules supported by devices                                   *)

(* a module is a dictionary in defaults that has attributes *)
Definition a_module (sets : dict val) (m : string) : Prop := exists a, lookup [m; "attributes"] (VDict sets) = Some a.
Definition feature (devs : dict val) (d m : string) (v : val) : Prop := lookup [d; "features"; m] (VDict devs) = Some v.

Definition isfalse (v : val) : bool := match v with VBool false => true | _ => false end.
Definition norm (v : val) : val := match v with VNull | VBool true => empty_box | _ => v end.
Definition modb (o : option val) : bool := match o with Some (VDict md) => dmem "attributes" md | _ => false end.
Definition nf (fv : val) (o : option val) : option val := if modb o && isfalse fv then None else Some (norm fv).
Definition ns (d : string) (fv : val) (o : option val) : option val :=
  match o with
  | Some (VDict md) => if dmem "attributes" md && negb (isfalse fv) then match add_support d md with Ok md' => Some (VDict md') | Err _ => o end else o
  | _ => o
  end.
Definition feat (devs : dict val) (d m : string) : option val :=
  match dget "features" (rdd d devs) with Some fv => dget m (entries fv) | None => None end.

Lemma feat_feature : forall devs d m v, feat devs d m = Some v <-> feature devs d m v.
Proof.
  intros devs d m v. unfold feature, feat, rdd, rd. cbn [lookup]. destruct (dget d devs) as [x|]; [|split; intros Q; discriminate Q].
  destruct x as [| | | | |x]; cbn [entries]; try (split; intros Q; discriminate Q).
  destruct (dget "features" x) as [y|]; [|split; intros Q; discriminate Q].
  destruct y as [| | | | |y]; cbn [entries lookup]; try (split; intros Q; discriminate Q).
  destruct (dget m y) as [z|]; [|split; intros Q; discriminate Q]. destruct z; split; intros Q; exact Q.
Qed.

Lemma modb_module : forall sets m, modb (dget m sets) = true <-> a_module sets m.
Proof.
  intros sets m. unfold modb, a_module. cbn [lookup]. destruct (dget m sets) as [x|]; [|split; [intros Q; discriminate Q|intros [a Q]; discriminate Q]].
  destruct x as [| | | | |x]; try (split; [intros Q; discriminate Q|intros [a Q]; discriminate Q]).
  unfold dmem. cbn [lookup]. destruct (dget "attributes" x) as [a|]; split; intros Q; try discriminate Q; try reflexivity.
  - exists a. destruct a; reflexivity.
  - destruct Q as [a Q]. discriminate Q.
Qed.

Lemma step_get : forall d m f sets f' sets' fv, support_step d m f sets = Ok (f', sets') -> dget m f = Some fv ->
  dget m f' = nf fv (dget m sets) /\ dget m sets' = ns d fv (dget m sets)
  /\ forall k, k <> m -> dget k f' = dget k f /\ dget k sets' = dget k sets.
Proof.
  intros d m f sets f' sets' fv H G. unfold support_step, rd in H. rewrite G in H. cbv zeta in H.
  set (f1 := match fv with VNull | VBool true => dset m empty_box f | _ => f end) in H.
  assert (F1 : dget m f1 = Some (norm fv)).
  { unfold f1, norm. destruct fv as [|b| | | |]; try exact G; [apply dget_dset_same|]. destruct b; [apply dget_dset_same|exact G]. }
  assert (FO : forall k, k <> m -> dget k f1 = dget k f).
  { intros k N. unfold f1. destruct fv as [|b| | | |]; try reflexivity; [apply dget_dset_other; exact N|]. destruct b; [apply dget_dset_other; exact N|reflexivity]. }
  clearbody f1. unfold nf, ns, modb. destruct (dget m sets) as [x|] eqn:S.
  2:{ injection H as H1 H2. subst f' sets'. cbn [andb]. split; [exact F1|]. split; [exact S|]. intros k N. split; [apply FO; exact N|reflexivity]. }
  destruct x as [| | | | |md]; try discriminate H. destruct (dmem "attributes" md); cbn [negb] in H.
  2:{ injection H as H1 H2. subst f' sets'. cbn [andb]. split; [exact F1|]. split; [exact S|]. intros k N. split; [apply FO; exact N|reflexivity]. }
  cbn [andb]. destruct (isfalse fv) eqn:IF.
  - destruct fv as [|[|]| | | |]; try discriminate IF. injection H as H1 H2. subst f' sets'. cbn [negb]. split; [apply dget_dpop_same|]. split; [exact S|].
    intros k N. split; [rewrite dget_dpop_other by exact N; apply FO; exact N|reflexivity].
  - assert (H' : match add_support d md with Ok md' => Ok (f1, dset m (VDict md') sets) | Err e => Err e end = Ok (f', sets')).
    { destruct fv as [|[|]| | | |]; try discriminate IF; exact H. }
    clear H. cbn [negb]. destruct (add_support d md) as [md'|e]; [|discriminate H']. injection H' as H1 H2. subst f' sets'.
    split; [exact F1|]. split; [apply dget_dset_same|]. intros k N. split; [apply FO; exact N|apply dget_dset_other; exact N].
Qed.

Lemma features_get : forall d ms f sets f' sets', NoDup ms -> (forall m, In m ms -> In m (dkeys f)) ->
  support_features d ms f sets = Ok (f', sets') ->
  (forall k, ~ In k ms -> dget k f' = dget k f /\ dget k sets' = dget k sets) /\
  (forall m fv, In m ms -> dget m f = Some fv -> dget m f' = nf fv (dget m sets) /\ dget m sets' = ns d fv (dget m sets)).
Proof.
  intros d. induction ms as [|m r IH]; intros f sets f' sets' ND K H; cbn [support_features] in H.
  - injection H as H1 H2. subst f' sets'. split; [intros k _; split; reflexivity|intros m fv []].
  - inversion ND as [|m0 r0 NI ND']. subst m0 r0. destruct (support_step d m f sets) as [[f1 s1]|e] eqn:S; [|discriminate H].
    destruct (dget m f) as [fm|] eqn:G.
    2:{ apply dget_None in G. exfalso. apply G. apply K. left. reflexivity. }
    destruct (step_get _ _ _ _ _ _ _ S G) as [A [B C]].
    assert (K' : forall k, In k r -> In k (dkeys f1)).
    { intros k I. assert (N : k <> m) by (intros Q; subst k; contradiction). destruct (dget k f1) as [v|] eqn:Q; [apply (dget_Some_key _ _ Q)|].
      rewrite (proj1 (C k N)) in Q. apply dget_None in Q. exfalso. apply Q. apply K. right. exact I. }
    destruct (IH _ _ _ _ ND' K' H) as [D E]. split.
    + intros k N. assert (N1 : k <> m) by (intros Q; apply N; left; auto). assert (N2 : ~ In k r) by (intros Q; apply N; right; exact Q).
      destruct (D k N2) as [D1 D2]. destruct (C k N1) as [C1 C2]. split; congruence.
    + intros k fv I Gk. destruct I as [I|I].
      * subst k. rewrite G in Gk. injection Gk as Gk. subst fm. destruct (D m NI) as [D1 D2]. split; congruence.
      * assert (N1 : k <> m) by (intros Q; subst k; contradiction). destruct (C k N1) as [C1 C2]. rewrite <- C2. apply E; [exact I|congruence].
Qed.

Definition wf_features (devs : dict val) : Prop := forall d fv, dget "features" (rdd d devs) = Some fv -> NoDup (dkeys (entries fv)).

Lemma rdd_dset : forall d e x devs, rdd e (dset d (VDict x) devs) = if String.eqb e d then x else rdd e devs.
Proof.
  intros d e x devs. unfold rdd, rd. destruct (String.eqb_spec e d) as [E|E].
  - subst e. rewrite dget_dset_same. reflexivity.
  - rewrite dget_dset_other by exact E. reflexivity.
Qed.

(* settings: a fold over devices; devices: attribute by attribute *)
Lemma build_get : forall names devs sets devs' sets', NoDup names ->
  (forall d fv, In d names -> dget "features" (rdd d devs) = Some fv -> NoDup (dkeys (entries fv))) ->
  build_support names devs sets = Ok (devs', sets') ->
  (forall m, dget m sets' = fold_left (fun o d => match feat devs d m with Some fv => ns d fv o | None => o end) names (dget m sets)) /\
  (forall d, ~ In d names -> dget d devs' = dget d devs) /\
  (forall d k, k <> "features" -> dget k (rdd d devs') = dget k (rdd d devs)).
Proof.
  induction names as [|d r IH]; intros devs sets devs' sets' ND WF H; cbn [build_support] in H.
  - injection H as H1 H2. subst devs' sets'. cbn [fold_left]. repeat split; intros; reflexivity.
  - inversion ND as [|d0 r0 NI ND']. subst d0 r0. cbn [fold_left]. destruct (dget "features" (rdd d devs)) as [fv|] eqn:F.
    + destruct (support_features d (dkeys (entries fv)) (entries fv) sets) as [[f1 s1]|e] eqn:S; [|discriminate H].
      pose proof (features_get _ _ _ _ _ _ (WF d fv (or_introl eq_refl) F) (fun m Q => Q) S) as [A B].
      assert (RD : forall e, e <> d -> rdd e (dset d (VDict (dset "features" (VDict f1) (rdd d devs))) devs) = rdd e devs).
      { intros e N. rewrite rdd_dset. apply String.eqb_neq in N. rewrite N. reflexivity. }
      assert (WF' : forall e v, In e r -> dget "features" (rdd e (dset d (VDict (dset "features" (VDict f1) (rdd d devs))) devs)) = Some v -> NoDup (dkeys (entries v))).
      { intros e v I Q. rewrite RD in Q by (intros E; subst e; contradiction). apply (WF e v); [right; exact I|exact Q]. }
      destruct (IH _ _ _ _ ND' WF' H) as [C [D E]]. split; [|split].
      * intros m. rewrite C. 
        assert (X : dget m s1 = match dget m (entries fv) with Some v => ns d v (dget m sets) | None => dget m sets end).
        { destruct (dget m (entries fv)) as [v|] eqn:G.
          - apply B; [apply (dget_Some_key _ _ G)|exact G].
          - apply A. apply dget_None. exact G. }
        assert (FM : feat devs d m = dget m (entries fv)) by (unfold feat; rewrite F; reflexivity).
        rewrite X, FM. clear - RD NI. generalize (match dget m (entries fv) with Some v => ns d v (dget m sets) | None => dget m sets end).
        assert (EQ : forall e, In e r -> feat (dset d (VDict (dset "features" (VDict f1) (rdd d devs))) devs) e m = feat devs e m).
        { intros e I. unfold feat. rewrite RD by (intros Q; subst e; contradiction). reflexivity. }
        clear RD NI. induction r as [|e r IH]; intros o; [reflexivity|]. cbn [fold_left]. rewrite (EQ e) by (left; reflexivity). apply IH.
        intros e' I. apply EQ. right. exact I.
      * intros e N. rewrite D by (intros Q; apply N; right; exact Q). apply dget_dset_other. intros Q. apply N. left. auto.
      * intros e k N. rewrite E by exact N. rewrite rdd_dset. destruct (String.eqb_spec e d) as [Q|Q]; [|reflexivity]. subst e. apply dget_dset_other. exact N.
    + assert (WF' : forall e v, In e r -> dget "features" (rdd e devs) = Some v -> NoDup (dkeys (entries v))).
      { intros e v I Q. apply (WF e v); [right; exact I|exact Q]. }
      destruct (IH _ _ _ _ ND' WF' H) as [C [D E]]. split; [|split; [|exact E]].
      { intros m. rewrite C. assert (FM : feat devs d m = None) by (unfold feat; rewrite F; reflexivity). rewrite FM. reflexivity. }
      intros e N. apply D. intros Q. apply N. right. exact Q.
Qed.

Lemma add_support_get : forall d md md', add_support d md = Ok md' ->
  (forall k, k <> "supported_on" -> dget k md' = dget k md) /\
  exists old, (dget "supported_on" md = Some (VList old) \/ (dget "supported_on" md = None /\ old = [])) /\
    ((In (VStr d) old /\ md' = md) \/ (~ In (VStr d) old /\ dget "supported_on" md' = Some (VList (old ++ [VStr d])))).
Proof.
  intros d md md' H. unfold add_support in H. destruct (dget "supported_on" md) as [x|] eqn:G.
  - destruct x as [| | | |l|]; try discriminate H. destruct (existsb (veqb (VStr d)) l) eqn:X; injection H as H.
    + subst md'. split; [reflexivity|]. exists l. split; [left; reflexivity|]. left. split; [apply veqb_in; exact X|reflexivity].
    + subst md'. split; [intros k N; apply dget_dset_other; exact N|]. exists l. split; [left; reflexivity|]. right. split; [|apply dget_dset_same].
      intros Q. apply veqb_in in Q. congruence.
  - injection H as H. subst md'. split; [intros k N; apply dget_dset_other; exact N|]. exists []. split; [right; split; reflexivity|].
    right. split; [intros []|apply dget_dset_same].
Qed.

(* the list of devices of a module *)
Definition listed (md : dict val) (l : list val) : Prop := dget "supported_on" md = Some (VList l) \/ (dget "supported_on" md = None /\ l = []).

Lemma listed_unique : forall md l l', listed md l -> listed md l' -> l = l'.
Proof. intros md l l' [A|[A B]] [C|[C D]]; congruence. Qed.

Theorem support_lists_exact : forall names devs sets devs' sets' m md old, NoDup names -> wf_features devs ->
  build_support names devs sets = Ok (devs', sets') -> a_module sets m -> dget m sets = Some (VDict md) -> listed md old ->
  exists md' added, dget m sets' = Some (VDict md') /\ (forall k, k <> "supported_on" -> dget k md' = dget k md)
    /\ listed md' (old ++ map VStr added)
    /\ (forall d, In d added <-> In d names /\ ~ In (VStr d) old /\ exists v, feature devs d m v /\ v <> VBool false)
    /\ subseq added names.
Proof.
  intros names devs sets devs' sets' m md old ND WF H M G L.
  destruct (build_get names devs sets devs' sets' ND (fun d fv _ Q => WF d fv Q) H) as [A _]. specialize (A m). rewrite G in A.
  apply modb_module in M. rewrite G in M. cbn [modb] in M.
  (* success: no device makes the list fail *)
  assert (LG : forall d md0, (exists l, listed md0 l) -> exists md1, add_support d md0 = Ok md1).
  { intros d md0 [l Q]. unfold add_support. destruct Q as [Q|[Q _]]; rewrite Q; eexists; reflexivity. }
  clear H G. rewrite A. clear A. revert md old M L ND. induction names as [|d r IH]; intros md old M L ND.
  - cbn [fold_left]. exists md, []. split; [reflexivity|]. split; [reflexivity|]. cbn [map]. rewrite app_nil_r. split; [exact L|]. split; [|constructor].
    intros d. split; [intros []|intros [[] _]].
  - inversion ND as [|d0 r0 NI ND']. subst d0 r0. cbn [fold_left].
    destruct (feat devs d m) as [fv|] eqn:F.
    2:{ destruct (IH md old M L ND') as [md' [added [E [K [L' [I S]]]]]]. exists md', added. split; [exact E|]. split; [exact K|]. split; [exact L'|]. split; [|constructor; exact S].
        intros e. rewrite I. split.
        - intros [X Y]. split; [right; exact X|exact Y].
        - intros [[X|X] Y]; [|split; assumption]. subst e. exfalso. destruct Y as [_ [v [V _]]]. apply feat_feature in V. congruence. }
    cbn [ns]. rewrite M. cbn [andb]. destruct (isfalse fv) eqn:IF; cbn [negb].
    { destruct (IH md old M L ND') as [md' [added [E [K [L' [I S]]]]]]. exists md', added. split; [exact E|]. split; [exact K|]. split; [exact L'|]. split; [|constructor; exact S].
      intros e. rewrite I. split.
      - intros [X Y]. split; [right; exact X|exact Y].
      - intros [[X|X] Y]; [|split; assumption]. subst e. exfalso. destruct Y as [_ [v [V N]]]. apply feat_feature in V. rewrite F in V. injection V as V. subst v.
        destruct fv as [|[|]| | | |]; try discriminate IF. apply N. reflexivity. }
    assert (NF : fv <> VBool false) by (intros Q; subst fv; discriminate IF).
    destruct (LG d md (ex_intro _ old L)) as [md1 AS]. rewrite AS. destruct (add_support_get _ _ _ AS) as [K1 [old' [L1 C]]].
    assert (OL : old' = old) by (exact (listed_unique _ _ _ L1 L)). subst old'.
    assert (M1 : dmem "attributes" md1 = true).
    { unfold dmem. rewrite K1 by discriminate. exact M. }
    destruct C as [[IN EQ]|[NIN SO]].
    + subst md1. destruct (IH md old M L ND') as [md' [added [E [K [L' [I S]]]]]]. exists md', added. split; [exact E|]. split; [exact K|]. split; [exact L'|]. split; [|constructor; exact S].
      intros e. rewrite I. split.
      * intros [X Y]. split; [right; exact X|exact Y].
      * intros [[X|X] Y]; [|split; assumption]. subst e. exfalso. apply (proj1 Y). exact IN.
    + destruct (IH md1 (old ++ [VStr d]) M1 (or_introl SO) ND') as [md' [added [E [K [L' [I S]]]]]].
      exists md', (d :: added). split; [exact E|]. split; [intros k N; rewrite K by exact N; apply K1; exact N|]. split; [cbn [map]; rewrite <- app_assoc in L'; exact L'|]. split; [|constructor; exact S].
      intros e. cbn [In]. rewrite I. split.
      * intros [X|[X [Y Z]]]; [subst e; split; [left; reflexivity|split; [exact NIN|exists fv; split; [apply feat_feature; exact F|exact NF]]]|].
        split; [right; exact X|]. split; [|exact Z]. intros Q. apply Y. apply in_or_app. left. exact Q.
      * intros [X [Y Z]]. destruct (string_dec d e) as [Q|Q]; [left; exact Q|right]. split; [destruct X as [X|X]; [contradiction|exact X]|].
        split; [|exact Z]. intros W. apply in_app_or in W. destruct W as [W|[W|[]]]; [contradiction|]. apply Q. congruence.
Qed.

(* Anything in defaults that is not a module stays. *)
Theorem support_lists_others : forall names devs sets devs' sets' m, NoDup names -> wf_features devs ->
  build_support names devs sets = Ok (devs', sets') -> ~ a_module sets m -> dget m sets' = dget m sets.
Proof.
  intros names devs sets devs' sets' m ND WF H M.
  destruct (build_get names devs sets devs' sets' ND (fun d fv _ Q => WF d fv Q) H) as [A _]. rewrite A. clear A H.
  assert (N : modb (dget m sets) = false). { destruct (modb (dget m sets)) eqn:Q; [exfalso; apply M; apply modb_module; exact Q|reflexivity]. }
  generalize dependent (dget m sets). intros o N. clear ND. induction names as [|d r IH]; [reflexivity|]. cbn [fold_left].
  destruct (feat devs d m) as [fv|]; [|exact IH]. assert (E : ns d fv o = o); [|rewrite E; exact IH].
  unfold ns. unfold modb in N. destruct o as [[| | | | |md]|]; try reflexivity. rewrite N. reflexivity.
Qed.

(* Features: true and null become empty dictionaries, modules set to false go away, everything else stays. *)
Theorem device_features_exact : forall names devs sets devs' sets' d m, NoDup names -> wf_features devs ->
  build_support names devs sets = Ok (devs', sets') -> In d names ->
  (forall v, feature devs' d m v <-> exists w, feature devs d m w /\
     ((w = VNull \/ w = VBool true) /\ v = VDict [] \/
      w = VBool false /\ ~ a_module sets m /\ v = w \/
      w <> VNull /\ w <> VBool true /\ w <> VBool false /\ v = w))
  /\ forall k, k <> "features" -> dget k (rdd d devs') = dget k (rdd d devs).
Proof.
  intros names devs sets devs' sets' d m ND WF H I.
  split; [|intros k; apply (build_get names devs sets devs' sets' ND (fun d fv _ Q => WF d fv Q) H)].
  assert (MI : forall ns0 ds ss ds' ss', NoDup ns0 -> (forall d fv, In d ns0 -> dget "features" (rdd d ds) = Some fv -> NoDup (dkeys (entries fv))) ->
             build_support ns0 ds ss = Ok (ds', ss') -> modb (dget m ss') = modb (dget m ss)).
  { intros ns0 ds ss ds' ss' N W Q. destruct (build_get _ _ _ _ _ N W Q) as [A _]. rewrite A. clear.
    generalize (dget m ss). induction ns0 as [|e r IH]; intros o; [reflexivity|]. cbn [fold_left]. rewrite IH. destruct (feat ds e m) as [fv|]; [|reflexivity].
    destruct o as [[| | | | |md]|]; try reflexivity. cbn [ns]. destruct (dmem "attributes" md && negb (isfalse fv)); [|reflexivity].
    destruct (add_support e md) as [md'|] eqn:AS; [|reflexivity]. cbn [modb]. unfold dmem. rewrite (proj1 (add_support_get _ _ _ AS)) by discriminate. reflexivity. }
  assert (FX : feat devs' d m = match feat devs d m with Some w => nf w (dget m sets) | None => None end).
  { assert (MB : forall w o o', modb o = modb o' -> nf w o = nf w o') by (intros w o o' Q; unfold nf; rewrite Q; reflexivity).
    assert (WF' : forall d fv, In d names -> dget "features" (rdd d devs) = Some fv -> NoDup (dkeys (entries fv))) by (intros e fv _ Q; exact (WF e fv Q)).
    clear WF. revert devs sets H ND WF' I. induction names as [|e r IH]; intros devs sets H ND WF I; [destruct I|].
    inversion ND as [|e0 r0 NI ND']. subst e0 r0. cbn [build_support] in H. destruct (dget "features" (rdd e devs)) as [fv|] eqn:F.
    - destruct (support_features e (dkeys (entries fv)) (entries fv) sets) as [[f1 s1]|x] eqn:S; [|discriminate H].
      pose proof (features_get _ _ _ _ _ _ (WF e fv (or_introl eq_refl) F) (fun m Q => Q) S) as [A B].
      set (devs1 := dset e (VDict (dset "features" (VDict f1) (rdd e devs))) devs) in *.
      assert (RD : forall x, x <> e -> rdd x devs1 = rdd x devs).
      { intros x N. unfold devs1. rewrite rdd_dset. apply String.eqb_neq in N. rewrite N. reflexivity. }
      assert (WF1 : forall d fv, In d r -> dget "features" (rdd d devs1) = Some fv -> NoDup (dkeys (entries fv))).
      { intros x v J Q. rewrite RD in Q by (intros E; subst x; contradiction). apply (WF x v); [right; exact J|exact Q]. }
      destruct (string_dec d e) as [Q|Q].
      + subst e. destruct (build_get _ _ _ _ _ ND' WF1 H) as [_ [D _]].
        assert (X : feat devs' d m = dget m f1).
        { unfold feat, rdd, rd. rewrite (D d NI). unfold devs1. rewrite dget_dset_same. cbn [entries]. rewrite dget_dset_same. reflexivity. }
        rewrite X. unfold feat. rewrite F. destruct (dget m (entries fv)) as [w|] eqn:G.
        * apply B; [apply (dget_Some_key _ _ G)|exact G].
        * rewrite (proj1 (A m (proj1 (dget_None _ _) G))). exact G.
      + destruct I as [I|I]; [congruence|]. rewrite (IH devs1 s1 H ND' WF1 I). unfold feat. rewrite RD by exact Q.
        destruct (dget "features" (rdd d devs)) as [fv'|]; [|reflexivity]. destruct (dget m (entries fv')) as [w|]; [|reflexivity]. apply MB.
        destruct (dget m (entries fv)) as [w'|] eqn:G.
        * destruct (B m w' (dget_Some_key _ _ G) G) as [_ B2]. rewrite B2. clear. destruct (dget m sets) as [[| | | | |md]|]; try reflexivity. cbn [ns].
          destruct (dmem "attributes" md && negb (isfalse w')); [|reflexivity]. destruct (add_support e md) as [md'|] eqn:AS; [|reflexivity].
          cbn [modb]. unfold dmem. rewrite (proj1 (add_support_get _ _ _ AS)) by discriminate. reflexivity.
        * rewrite (proj2 (A m (proj1 (dget_None _ _) G))). reflexivity.
    - destruct (string_dec d e) as [Q|Q].
      + subst e. assert (WF1 : forall d fv, In d r -> dget "features" (rdd d devs) = Some fv -> NoDup (dkeys (entries fv))).
        { intros x v J Q. apply (WF x v); [right; exact J|exact Q]. }
        destruct (build_get _ _ _ _ _ ND' WF1 H) as [_ [D _]]. unfold feat, rdd, rd. rewrite (D d NI). fold (rd d devs). fold (rdd d devs). rewrite F. reflexivity.
      + destruct I as [I|I]; [congruence|]. apply IH; auto. intros x v J W. apply (WF x v); [right; exact J|exact W]. }
  intros v. rewrite <- feat_feature, FX. split.
  - destruct (feat devs d m) as [w|] eqn:F; [|intros Q; discriminate Q]. intros Q. exists w. split; [apply feat_feature; exact F|].
    unfold nf in Q. destruct (isfalse w) eqn:IF.
    + destruct w as [|[|]| | | |]; try discriminate IF. destruct (modb (dget m sets)) eqn:MB; [discriminate Q|]. cbn [andb norm] in Q. injection Q as Q. right. left.
      split; [reflexivity|]. split; [|auto]. intros A. apply modb_module in A. congruence.
    + rewrite andb_false_r in Q. injection Q as Q. subst v. destruct w as [|[|]| | | |]; cbn [norm]; try (right; right; repeat split; discriminate); [left|left]; auto.
  - intros [w [F C]]. apply feat_feature in F. rewrite F. unfold nf. destruct C as [[[C|C] D]|[[C [N D]]|[C1 [C2 [C3 D]]]]].
    + subst w v. rewrite andb_false_r. reflexivity.
    + subst w v. rewrite andb_false_r. reflexivity.
    + subst w v. destruct (modb (dget m sets)) eqn:MB; [exfalso; apply N; apply modb_module; exact MB|]. reflexivity.
    + subst v. destruct w as [|[|]| | | |]; try congruence; rewrite andb_false_r; reflexivity.
Qed.

Example support_case :
  build_support ["eos"; "frr"; "none"]
    [("frr", VDict [("features", VDict [("bgp", VBool true); ("srv6", VBool false); ("weird", VNull)]); ("mtu", VInt 1500)]); ("none", VDict []);
     ("eos", VDict [("features", VDict [("bgp", VDict [("x", VInt 1)])])])]
    [("bgp", VDict [("attributes", VDict []); ("supported_on", VList [VStr "eos"])]); ("srv6", VDict [("attributes", VNull)]); ("const", VInt 1)] =
  Ok ([("frr", VDict [("features", VDict [("bgp", VDict []); ("weird", VDict [])]); ("mtu", VInt 1500)]); ("none", VDict []);
       ("eos", VDict [("features", VDict [("bgp", VDict [("x", VInt 1)])])])],
      [("bgp", VDict [("attributes", VDict []); ("supported_on", VList [VStr "eos"; VStr "frr"])]); ("srv6", VDict [("attributes", VNull)]); ("const", VInt 1)]).
Proof. vm_compute. reflexivity. Qed.

(* The transformation stops exactly when a feature names a setting that is not a dictionary, or a supported module with a list of
   devices that is not a list. *)
Definition badb (v : val) (o : option val) : bool :=
  match o with
  | None => false
  | Some (VDict md) => dmem "attributes" md && negb (isfalse v) && match dget "supported_on" md with None | Some (VList _) => false | Some _ => true end
  | Some _ => true
  end.

Lemma step_err : forall d m f sets fv, dget m f = Some fv ->
  (exists e, support_step d m f sets = Err e) <-> badb fv (dget m sets) = true.
Proof.
  intros d m f sets fv G. unfold support_step, rd. rewrite G. cbv zeta. unfold badb.
  set (f1 := match fv with VNull | VBool true => dset m empty_box f | _ => f end). clearbody f1.
  destruct (dget m sets) as [x|]; [|split; [intros [e H]; discriminate H|intros H; discriminate H]].
  destruct x as [| | | | |md]; try (split; [reflexivity|intros _; eexists; reflexivity]).
  destruct (dmem "attributes" md); cbn [negb andb]; [|split; [intros [e H]; discriminate H|intros H; discriminate H]].
  assert (A : (exists e, match add_support d md with Ok md' => Ok (f1, dset m (VDict md') sets) | Err e => Err e end = Err e) <->
              match dget "supported_on" md with None | Some (VList _) => false | Some _ => true end = true).
  { unfold add_support. destruct (dget "supported_on" md) as [x|]; [|split; [intros [e H]; discriminate H|intros H; discriminate H]].
    destruct x as [| | | |l|]; try (split; [reflexivity|intros _; eexists; reflexivity]). split; [intros [e H]; discriminate H|intros H; discriminate H]. }
  destruct fv as [|[|]| | | |]; cbn [isfalse negb andb]; try exact A. split; [intros [e H]; discriminate H|intros H; discriminate H].
Qed.

Lemma ns_bad : forall d w v o, badb w o = false -> badb v (ns d w o) = badb v o.
Proof.
  intros d w v o B. destruct o as [[| | | | |md]|]; try reflexivity. cbn [ns]. destruct (dmem "attributes" md && negb (isfalse w)) eqn:C; [|reflexivity].
  destruct (add_support d md) as [md'|] eqn:AS; [|reflexivity]. destruct (add_support_get _ _ _ AS) as [K [old [L Q]]].
  cbn [badb]. unfold dmem. rewrite K by discriminate. f_equal.
  assert (X : match dget "supported_on" md with None | Some (VList _) => false | Some _ => true end = false) by (destruct L as [L|[L _]]; rewrite L; reflexivity).
  rewrite X. destruct Q as [[_ Q]|[_ Q]]; [subst md'; exact X|rewrite Q; reflexivity].
Qed.

Lemma features_err : forall d ms f sets, NoDup ms -> (forall m, In m ms -> In m (dkeys f)) ->
  ((exists e, support_features d ms f sets = Err e) <-> exists m fv, In m ms /\ dget m f = Some fv /\ badb fv (dget m sets) = true).
Proof.
  intros d. induction ms as [|m r IH]; intros f sets ND K; cbn [support_features].
  - split; [intros [e H]; discriminate H|intros [m [fv [[] _]]]].
  - inversion ND as [|m0 r0 NI ND']. subst m0 r0.
    destruct (dget m f) as [fm|] eqn:G.
    2:{ apply dget_None in G. exfalso. apply G. apply K. left. reflexivity. }
    destruct (support_step d m f sets) as [[f1 s1]|e] eqn:S.
    + destruct (step_get _ _ _ _ _ _ _ S G) as [A [B C]].
      assert (NB : badb fm (dget m sets) = false).
      { destruct (badb fm (dget m sets)) eqn:Q; [|reflexivity]. apply (step_err d m f sets fm G) in Q. destruct Q as [e Q]. congruence. }
      assert (K' : forall k, In k r -> In k (dkeys f1)).
      { intros k I. assert (N : k <> m) by (intros Q; subst k; contradiction). destruct (dget k f1) as [v|] eqn:Q; [apply (dget_Some_key _ _ Q)|].
        rewrite (proj1 (C k N)) in Q. apply dget_None in Q. exfalso. apply Q. apply K. right. exact I. }
      rewrite (IH f1 s1 ND' K'). split.
      * intros [k [v [I [Gk Bk]]]]. assert (N : k <> m) by (intros Q; subst k; contradiction). destruct (C k N) as [C1 C2]. exists k, v. split; [right; exact I|]. split; congruence.
      * intros [k [v [[I|I] [Gk Bk]]]]; [subst k; congruence|]. assert (N : k <> m) by (intros Q; subst k; contradiction). destruct (C k N) as [C1 C2]. exists k, v. split; [exact I|]. split; congruence.
    + split; [intros _|intros _; exists e; reflexivity]. exists m, fm. split; [left; reflexivity|]. split; [exact G|]. apply (step_err d m f sets fm G). exists e. exact S.
Qed.

Lemma badb_spec : forall v sets m, badb v (dget m sets) = true <->
  (exists x, dget m sets = Some x /\ is_dict x = false) \/
  (a_module sets m /\ v <> VBool false /\ exists s, lookup [m; "supported_on"] (VDict sets) = Some s /\ forall l, s <> VList l).
Proof.
  intros v sets m. rewrite <- modb_module. unfold badb, modb. cbn [lookup]. destruct (dget m sets) as [x|].
  2:{ split; [intros H; discriminate H|]. intros [[x [H _]]|[H _]]; discriminate H. }
  destruct x as [| | | | |md]; try (split; [intros _; left; eexists; split; reflexivity|reflexivity]).
  assert (LK : forall s, lookup ["supported_on"] (VDict md) = Some s <-> dget "supported_on" md = Some s).
  { intros s. cbn [lookup]. destruct (dget "supported_on" md) as [y|]; [|reflexivity]. destruct y; reflexivity. }
  split.
  - intros H. right. apply andb_true_iff in H. destruct H as [H S]. apply andb_true_iff in H. destruct H as [H F]. split; [exact H|]. split; [intros Q; subst v; discriminate F|].
    destruct (dget "supported_on" md) as [s|] eqn:G; [|discriminate S]. exists s. split; [first [reflexivity | destruct s; reflexivity]|]. intros l Q. subst s. discriminate S.
  - intros [[x [E D]]|[H [F [s [L N]]]]]; [injection E as E; subst x; discriminate D|]. apply LK in L. rewrite H, L.
    assert (X : isfalse v = false) by (destruct v as [|[|]| | | |]; try reflexivity; exfalso; apply F; reflexivity). rewrite X. cbn [negb andb].
    destruct s; try reflexivity. exfalso. exact (N _ eq_refl).
Qed.

Theorem support_stops_exact : forall names devs sets, NoDup names -> wf_features devs ->
  ((exists e, build_support names devs sets = Err e) <->
   exists d m v, In d names /\ feature devs d m v /\
     ((exists x, dget m sets = Some x /\ is_dict x = false) \/
      (a_module sets m /\ v <> VBool false /\ exists s, lookup [m; "supported_on"] (VDict sets) = Some s /\ forall l, s <> VList l))).
Proof.
  intros names devs sets ND WF0.
  assert (WF : forall d fv, In d names -> dget "features" (rdd d devs) = Some fv -> NoDup (dkeys (entries fv))) by (intros d fv _ Q; exact (WF0 d fv Q)). clear WF0.
  assert (T : (exists e, build_support names devs sets = Err e) <-> exists d m v, In d names /\ feat devs d m = Some v /\ badb v (dget m sets) = true).
  { revert devs sets ND WF. induction names as [|d r IH]; intros devs sets ND WF; cbn [build_support].
    - split; [intros [e H]; discriminate H|intros [d [m [v [[] _]]]]].
    - inversion ND as [|d0 r0 NI ND']. subst d0 r0. destruct (dget "features" (rdd d devs)) as [fv|] eqn:F.
      + pose proof (features_err d (dkeys (entries fv)) (entries fv) sets (WF d fv (or_introl eq_refl) F) (fun m Q => Q)) as FE.
        assert (FD : forall m, feat devs d m = dget m (entries fv)) by (intros m; unfold feat; rewrite F; reflexivity).
        destruct (support_features d (dkeys (entries fv)) (entries fv) sets) as [[f1 s1]|e] eqn:S.
        * pose proof (features_get _ _ _ _ _ _ (WF d fv (or_introl eq_refl) F) (fun m Q => Q) S) as [A B].
          assert (NB : forall m v, dget m (entries fv) = Some v -> badb v (dget m sets) = false).
          { intros m v G. destruct (badb v (dget m sets)) eqn:Q; [|reflexivity]. destruct (proj2 FE) as [e E]; [|discriminate E]. exists m, v. split; [apply (dget_Some_key _ _ G)|]. split; [exact G|exact Q]. }
          set (devs1 := dset d (VDict (dset "features" (VDict f1) (rdd d devs))) devs).
          assert (RD : forall x, In x r -> rdd x devs1 = rdd x devs).
          { intros x I. unfold devs1. rewrite rdd_dset. destruct (String.eqb_spec x d) as [Q|Q]; [subst x; contradiction|reflexivity]. }
          assert (WF1 : forall d fv, In d r -> dget "features" (rdd d devs1) = Some fv -> NoDup (dkeys (entries fv))).
          { intros x v J Q. rewrite RD in Q by exact J. apply (WF x v); [right; exact J|exact Q]. }
          rewrite (IH devs1 s1 ND' WF1).
          assert (BS : forall m v, badb v (dget m s1) = badb v (dget m sets)).
          { intros m v. destruct (dget m (entries fv)) as [w|] eqn:G.
            - destruct (B m w (dget_Some_key _ _ G) G) as [_ B2]. rewrite B2. apply ns_bad. apply NB. exact G.
            - rewrite (proj2 (A m (proj1 (dget_None _ _) G))). reflexivity. }
          split.
          -- intros [x [m [v [I [Q W]]]]]. exists x, m, v. split; [right; exact I|]. rewrite BS in W. split; [|exact W]. unfold feat in Q |- *. rewrite RD in Q by exact I. exact Q.
          -- intros [x [m [v [[I|I] [Q W]]]]].
             ++ subst x. rewrite FD in Q. rewrite (NB m v Q) in W. discriminate W.
             ++ exists x, m, v. split; [exact I|]. rewrite BS. split; [|exact W]. unfold feat in Q |- *. rewrite RD by exact I. exact Q.
        * split; [intros _|intros _; exists e; reflexivity]. destruct (proj1 FE) as [m [v [I [G W]]]]; [exists e; reflexivity|]. exists d, m, v. split; [left; reflexivity|]. rewrite FD. split; assumption.
      + rewrite (IH devs sets ND' (fun x v J Q => WF x v (or_intror J) Q)). split.
        * intros [x [m [v [I Q]]]]. exists x, m, v. split; [right; exact I|exact Q].
        * intros [x [m [v [[I|I] [Q W]]]]]; [|exists x, m, v; auto]. subst x. unfold feat in Q. rewrite F in Q. discriminate Q. }
  rewrite T. clear T. split; intros [d [m [v [I [Q W]]]]]; exists d, m, v; (split; [exact I|]).
  - split; [apply feat_feature; exact Q|]. apply badb_spec. exact W.
  - split; [apply feat_feature; exact Q|]. apply badb_spec. exact W.
Qed.

Example support_stops_case :
  build_support ["a"] [("a", VDict [("features", VDict [("const", VNull)])])] [("const", VInt 1)] = Err (EFatal "const").
Proof. reflexivity. Qed.

(* ------------------------------------------------------------------ *)
(* C217: daemons and checks of devices                                  *)

Definition clash (dm devs : dict val) (n : string) : Prop :=
  exists v, In (n, v) dm /\ ((forall x, v <> VDict x) \/ In n (dkeys devs)).

Lemma fold_dset : forall (g : string * val -> val) (l : dict val) ds k, NoDup (dkeys l) ->
  dget k (fold_left (fun ds kv => dset (fst kv) (g kv) ds) l ds) = match dget k l with Some v => Some (g (k, v)) | None => dget k ds end.
Proof.
  intros g. induction l as [|[n v] r IH]; intros ds k ND; [reflexivity|]. cbn [dkeys map fst] in ND. inversion ND as [|n0 r0 NI ND']. subst n0 r0.
  cbn [fold_left fst]. rewrite (IH _ _ ND'). cbn [dget]. destruct (String.eqb_spec k n) as [E|E].
  - subst n. destruct (dget k r) as [w|] eqn:G; [exfalso; apply NI; apply (dget_Some_key _ _ G)|]. apply dget_dset_same.
  - destruct (dget k r); [reflexivity|]. apply dget_dset_other. exact E.
Qed.

Theorem daemons_exact : forall dm devs, NoDup (dkeys dm) ->
  ((exists e, merge_daemons (Some dm) devs = Err e) <-> exists n, clash dm devs n)
  /\ merge_daemons None devs = Ok devs
  /\ forall devs', merge_daemons (Some dm) devs = Ok devs' ->
     (forall n, dget n dm = None -> dget n devs' = dget n devs) /\
     (forall n x, dget n dm = Some (VDict x) -> exists y, dget n devs' = Some (VDict y)
        /\ dget "daemon" y = Some (VBool true)
        /\ (forall v, dget "parent" x = Some v -> dget "parent" y = Some v)
        /\ (dget "parent" x = None -> dget "parent" y = Some (VStr "linux"))
        /\ dget "daemon_parent" y = dget "parent" y
        /\ (forall v, lookup ["group_vars"; "netlab_device_type"] (VDict x) = Some v -> dget "group_vars" y = dget "group_vars" x)
        /\ (lookup ["group_vars"; "netlab_device_type"] (VDict x) = None ->
              lookup ["group_vars"; "netlab_device_type"] (VDict y) = Some (VStr n)
              /\ forall k v, k <> "netlab_device_type" -> (lookup ["group_vars"; k] (VDict y) = Some v <-> lookup ["group_vars"; k] (VDict x) = Some v))
        /\ forall k, ~ In k ["daemon"; "parent"; "daemon_parent"; "group_vars"] -> dget k y = dget k x).
Proof.
  intros dm devs ND.
  assert (FD : forall kv, In kv dm -> (negb (is_dict (snd kv)) || dmem (fst kv) devs = true <-> (forall x, snd kv <> VDict x) \/ In (fst kv) (dkeys devs))).
  { intros [n v] _. cbn [fst snd]. rewrite orb_true_iff, dmem_true. split; intros [Q|Q]; auto; left.
    - intros x E. subst v. discriminate Q.
    - destruct v; try reflexivity. exfalso. exact (Q _ eq_refl). }
  split; [|split; [reflexivity|]].
  - unfold merge_daemons. destruct (find (fun kv : string * val => negb (is_dict (snd kv)) || dmem (fst kv) devs) dm) as [[n v]|] eqn:F.
    + apply find_some in F. destruct F as [I F]. split; [intros _|intros _; eexists; reflexivity]. exists n, v. split; [exact I|]. apply (FD (n, v) I). exact F.
    + split; [intros [e H]; discriminate H|]. intros [n [v [I Q]]]. pose proof (find_none _ _ F _ I) as X. apply (FD (n, v) I) in Q. congruence.
  - intros devs' H. unfold merge_daemons in H. destruct (find (fun kv : string * val => negb (is_dict (snd kv)) || dmem (fst kv) devs) dm) as [kv|] eqn:F; [discriminate H|]. injection H as H.
    assert (GD : forall n, dget n devs' = match dget n dm with Some v => Some (VDict (daemon_device n (entries v))) | None => dget n devs end).
    { intros n. rewrite <- H. apply (fold_dset (fun kv => VDict (daemon_device (fst kv) (entries (snd kv))))). exact ND. }
    clear H. split; [intros n G; rewrite GD, G; reflexivity|]. intros n x G. exists (daemon_device n x). split; [rewrite GD, G; reflexivity|]. clear GD F FD G ND.
    unfold daemon_device. set (d1 := dset "daemon" (VBool true) x).
    assert (D1 : forall k, k <> "daemon" -> dget k d1 = dget k x) by (intros k N; apply dget_dset_other; exact N).
    assert (D1' : dget "daemon" d1 = Some (VBool true)) by (apply dget_dset_same). clearbody d1.
    set (gv := rdd "group_vars" d1). set (d2 := if dmem "netlab_device_type" gv then d1 else dset "group_vars" (VDict (dset "netlab_device_type" (VStr n) gv)) d1).
    assert (D2 : forall k, k <> "group_vars" -> dget k d2 = dget k d1).
    { intros k N. unfold d2. destruct (dmem "netlab_device_type" gv); [reflexivity|]. apply dget_dset_other. exact N. }
    set (d3 := if dmem "parent" d2 then d2 else dset "parent" (VStr "linux") d2).
    assert (D3 : forall k, k <> "parent" -> dget k d3 = dget k d2).
    { intros k N. unfold d3. destruct (dmem "parent" d2); [reflexivity|]. apply dget_dset_other. exact N. }
    assert (P3 : dget "parent" d3 = match dget "parent" x with Some v => Some v | None => Some (VStr "linux") end).
    { unfold d3, dmem. rewrite (D2 "parent") by discriminate. rewrite (D1 "parent") by discriminate. destruct (dget "parent" x) as [v|] eqn:P.
      - rewrite D2 by discriminate. rewrite D1 by discriminate. exact P.
      - apply dget_dset_same. }
    assert (RP : forall k, k <> "daemon_parent" -> dget k (dset "daemon_parent" (rd "parent" d3) d3) = dget k d3) by (intros k N; apply dget_dset_other; exact N).
    assert (LG : forall (y : dict val) k v, lookup ["group_vars"; k] (VDict y) = Some v <-> dget k (rdd "group_vars" y) = Some v).
    { intros y k v. cbn [lookup]. unfold rdd, rd. destruct (dget "group_vars" y) as [g|]; [|split; intros Q; discriminate Q].
      destruct g as [| | | | |g]; cbn [entries lookup]; try (split; intros Q; discriminate Q). destruct (dget k g) as [w|]; [|split; intros Q; discriminate Q]. destruct w; reflexivity. }
    assert (GX : gv = rdd "group_vars" x) by (unfold gv, rdd, rd; rewrite D1 by discriminate; reflexivity).
    split; [rewrite RP, D3, D2 by discriminate; exact D1'|].
    split; [intros v P; rewrite RP by discriminate; rewrite P3, P; reflexivity|].
    split; [intros P; rewrite RP by discriminate; rewrite P3, P; reflexivity|].
    split.
    { rewrite dget_dset_same. rewrite RP by discriminate. unfold rd. rewrite P3. destruct (dget "parent" x); reflexivity. }
    split.
    { intros v L. apply LG in L. rewrite RP, D3 by discriminate. unfold d2, dmem. rewrite GX, L. apply D1. discriminate. }
    split.
    { intros L. assert (NG : dget "netlab_device_type" gv = None).
      { destruct (dget "netlab_device_type" gv) as [v|] eqn:Q; [|reflexivity]. rewrite GX in Q. apply LG in Q. congruence. }
      assert (G3 : rdd "group_vars" (dset "daemon_parent" (rd "parent" d3) d3) = dset "netlab_device_type" (VStr n) gv).
      { unfold rdd at 1. unfold rd at 1. rewrite RP, D3 by discriminate. unfold d2, dmem. rewrite NG, dget_dset_same. reflexivity. }
      split; [apply LG; rewrite G3; apply dget_dset_same|]. intros k v N. rewrite !LG, G3, <- GX. rewrite dget_dset_other by exact N. reflexivity. }
    intros k N. assert (N1 : k <> "daemon") by (intros Q; apply N; subst k; cbn [In]; auto). assert (N2 : k <> "parent") by (intros Q; apply N; subst k; cbn [In]; auto).
    assert (N3 : k <> "daemon_parent") by (intros Q; apply N; subst k; cbn [In]; auto). assert (N4 : k <> "group_vars") by (intros Q; apply N; subst k; cbn [In]; auto).
    rewrite RP, D3, D2, D1 by assumption. reflexivity.
Qed.

Example daemons_case :
  merge_daemons (Some [("bird", VDict [("group_vars", VDict [("x", VInt 1)]); ("image", VStr "i")])]) [("linux", VDict [])] =
    Ok [("linux", VDict []); ("bird", VDict [("group_vars", VDict [("x", VInt 1); ("netlab_device_type", VStr "bird")]); ("image", VStr "i"); ("daemon", VBool true); ("parent", VStr "linux"); ("daemon_parent", VStr "linux")])]
  /\ merge_daemons (Some [("linux", VDict [])]) [("linux", VDict [])] = Err (EFatal "linux").
Proof. split; vm_compute; reflexivity. Qed.

Theorem device_checks_exact : forall devs kept es, check_devices devs = (kept, es) ->
  (forall n v, In (n, v) kept <-> In (n, v) devs /\ lookup ["template"] v = None)
  /\ subseq kept devs
  /\ (forall n kw, In (n, kw) es <-> (kw = "interface_name" \/ kw = "description") /\ exists v, In (n, v) kept /\ lookup [kw] v = None).
Proof.
  intros devs kept es H. unfold check_devices in H. injection H as H1 H2. change (flat_map (fun kv : string * val => map (pair (fst kv)) (filter (fun kw => negb (dmem kw (entries (snd kv)))) ["interface_name"; "description"])) (filter (fun kv : string * val => negb (dmem "template" (entries (snd kv)))) devs) = es) in H2. rewrite H1 in H2.
  assert (LN : forall k v, negb (dmem k (entries v)) = true <-> lookup [k] v = None).
  { intros k v. unfold dmem. split.
    - intros Q. destruct (lookup [k] v) as [x|] eqn:L; [|reflexivity]. apply lookup_entries in L. rewrite L in Q. discriminate Q.
    - intros Q. destruct (dget k (entries v)) as [x|] eqn:L; [|reflexivity]. apply lookup_entries in L. congruence. }
  split; [|split].
  - intros n v. rewrite <- H1, filter_In. cbn [snd]. rewrite LN. reflexivity.
  - rewrite <- H1. clear. induction devs as [|kv r IH]; [constructor|]. cbn [filter]. destruct (negb (dmem "template" (entries (snd kv)))); constructor; exact IH.
  - intros n kw. rewrite <- H2, in_flat_map. split.
    + intros [[m v] [I Q]]. apply in_map_iff in Q. destruct Q as [kw' [E Q]]. cbn [fst] in E. injection E as E1 E2. subst m kw'. apply filter_In in Q. destruct Q as [Q1 Q2].
      split; [destruct Q1 as [Q1|[Q1|[]]]; auto|]. exists v. split; [exact I|]. apply LN. exact Q2.
    + intros [K [v [I L]]]. exists (n, v). split; [exact I|]. apply in_map_iff. exists kw. split; [reflexivity|]. apply filter_In. split; [destruct K as [K|K]; subst kw; cbn [In]; auto|]. apply LN. exact L.
Qed.

Theorem device_definitions_exact : forall devs,
  (bad_device devs = None <-> forall n v, In (n, v) devs -> exists x, v = VDict x)
  /\ forall n, bad_device devs = Some n -> exists v, In (n, v) devs /\ forall x, v <> VDict x.
Proof.
  intros devs. unfold bad_device. destruct (find (fun kv : string * val => negb (is_dict (snd kv))) devs) as [[n v]|] eqn:F.
  - apply find_some in F. destruct F as [I F]. cbn [snd] in F. assert (NV : forall x, v <> VDict x) by (intros x Q; subst v; discriminate F). split.
    + split; [intros Q; discriminate Q|]. intros Q. destruct (Q n v I) as [x E]. exfalso. exact (NV x E).
    + intros m Q. cbn [fst] in Q. injection Q as Q. subst m. exists v. split; assumption.
  - split; [|intros n Q; discriminate Q]. split; [intros _ n v I|reflexivity]. pose proof (find_none _ _ F _ I) as Q. cbn [snd] in Q. destruct v; try discriminate Q. eexists. reflexivity.
Qed.

Example device_checks_case :
  check_devices [("base", VDict [("template", VNull)]); ("a", VDict [("description", VStr "x")]); ("b", VDict [("description", VNull); ("interface_name", VStr "eth")])] =
    ([("a", VDict [("description", VStr "x")]); ("b", VDict [("description", VNull); ("interface_name", VStr "eth")])], [("a", "interface_name")])
  /\ bad_device [("a", VDict []); ("b", VInt 1)] = Some "b".
Proof. split; reflexivity. Qed.

(* ------------------------------------------------------------------ *)
(* C218: tools                                                          *)

(* tools after the pass: those of the topology and those enabled by default, known tools having a runtime *)
Lemma copy_tools_get : forall defs tools k, NoDup (dkeys defs) ->
  dget k (copy_default_tools defs tools) =
  match dget k tools with
  | Some v => Some v
  | None => match dget k defs with Some v => match dget "enabled" (entries v) with Some (VBool true) => Some v | _ => None end | None => None end
  end.
Proof.
  intros defs tools k ND. unfold copy_default_tools. revert tools. induction defs as [|[n v] r IH]; intros tools.
  - cbn [fold_left dget]. destruct (dget k tools); reflexivity.
  - cbn [dkeys map fst] in ND. inversion ND as [|n0 r0 NI ND']. subst n0 r0. cbn [fold_left fst snd]. rewrite (IH ND'). clear IH. cbn [dget].
    assert (S : dget k (match dget "enabled" (entries v) with Some (VBool true) => if dmem n tools then tools else dset n v tools | _ => tools end) =
                match dget k tools with Some w => Some w | None => if String.eqb k n then match dget "enabled" (entries v) with Some (VBool true) => Some v | _ => None end else None end).
    { destruct (dget "enabled" (entries v)) as [e|]; [|destruct (dget k tools); destruct (String.eqb k n); reflexivity].
      destruct e as [|[|]| | | |]; try (destruct (dget k tools); destruct (String.eqb k n); reflexivity). unfold dmem. destruct (String.eqb_spec k n) as [E|E].
      - subst n. destruct (dget k tools) as [w|] eqn:G; [exact G|]. apply dget_dset_same.
      - destruct (dget n tools); [destruct (dget k tools); reflexivity|]. rewrite dget_dset_other by exact E. destruct (dget k tools); reflexivity. }
    rewrite S. destruct (dget k tools); [reflexivity|]. destruct (String.eqb_spec k n) as [E|E]; [|reflexivity]. subst n.
    assert (G : dget k r = None) by (apply dget_None; exact NI). rewrite G. destruct (dget "enabled" (entries v)) as [[|[|]| | | |]|]; reflexivity.
Qed.

Lemma copy_tools_NoDup : forall defs tools, NoDup (dkeys tools) -> NoDup (dkeys (copy_default_tools defs tools)).
Proof.
  intros defs. unfold copy_default_tools. induction defs as [|[n v] r IH]; intros tools ND; [exact ND|]. cbn [fold_left fst snd]. apply IH.
  destruct (dget "enabled" (entries v)) as [[|[|]| | | |]|]; try exact ND. destruct (dmem n tools); [exact ND|]. apply NoDup_dset. exact ND.
Qed.

(* where the settings of a tool come from *)
Inductive tool_source (defs tools : dict val) (k : string) (v : val) : Prop :=
| from_topology : dget k tools = Some v -> tool_source defs tools k v
| from_defaults : dget k tools = None -> dget k defs = Some v -> lookup ["enabled"] v = Some (VBool true) -> tool_source defs tools k v.

Lemma copy_source : forall defs tools k v, NoDup (dkeys defs) -> (dget k (copy_default_tools defs tools) = Some v <-> tool_source defs tools k v).
Proof.
  intros defs tools k v ND. rewrite copy_tools_get by exact ND. split.
  - intros H. destruct (dget k tools) as [w|] eqn:G; [injection H as H; subst w; apply from_topology; exact G|].
    destruct (dget k defs) as [w|] eqn:D; [|discriminate H]. destruct (dget "enabled" (entries w)) as [[|[|]| | | |]|] eqn:E; try discriminate H. injection H as H. subst w.
    apply from_defaults; [exact G|exact D|]. apply lookup_entries. exact E.
  - intros [G|G D E]; rewrite G; [reflexivity|]. rewrite D. apply lookup_entries in E. rewrite E. reflexivity.
Qed.

(* the settings of a tool after validation *)
Definition tool_final (defs : dict val) (k : string) (v v' : val) : Prop :=
  (In k (dkeys defs) /\ lookup ["runtime"] v = None /\ v' = VDict (dset "runtime" (VStr "docker") (entries v)))
  \/ ((~ In k (dkeys defs) \/ lookup ["runtime"] v <> None) /\ v' = v).

Definition vt (defs : dict val) (kv : string * val) : string * val :=
  if dmem (fst kv) defs && negb (dmem "runtime" (entries (snd kv)))
  then (fst kv, VDict (dset "runtime" (VStr "docker") (entries (snd kv)))) else kv.

Lemma vt_fst : forall defs kv, fst (vt defs kv) = fst kv.
Proof. intros defs kv. unfold vt. destruct (dmem (fst kv) defs && negb (dmem "runtime" (entries (snd kv)))); reflexivity. Qed.

Lemma vt_final : forall defs k v, tool_final defs k v (snd (vt defs (k, v))).
Proof.
  intros defs k v. unfold vt, tool_final. cbn [fst snd].
  assert (L : dmem "runtime" (entries v) = true <-> lookup ["runtime"] v <> None).
  { unfold dmem. split.
    - intros Q. destruct (dget "runtime" (entries v)) as [x|] eqn:G; [|discriminate Q]. apply lookup_entries in G. congruence.
    - intros Q. destruct (lookup ["runtime"] v) as [x|] eqn:G; [|contradiction]. apply lookup_entries in G. rewrite G. reflexivity. }
  destruct (dmem k defs) eqn:K; cbn [andb].
  - apply dmem_true in K. destruct (dmem "runtime" (entries v)) eqn:R; cbn [negb snd].
    + right. split; [right; apply L; reflexivity|reflexivity].
    + left. split; [exact K|]. split; [destruct (lookup ["runtime"] v) as [x|] eqn:G; [exfalso; assert (Q : false = true) by (apply L; discriminate); discriminate Q|reflexivity]|].
      reflexivity.
  - right. cbn [snd]. split; [left|reflexivity]. intros Q. apply dmem_true in Q. congruence.
Qed.

Lemma dget_map_vt : forall defs (ts : dict val) k, dget k (map (vt defs) ts) = match dget k ts with Some v => Some (snd (vt defs (k, v))) | None => None end.
Proof.
  intros defs ts k. induction ts as [|[n v] r IH]; [reflexivity|]. cbn [map]. pose proof (vt_fst defs (n, v)) as F. destruct (vt defs (n, v)) as [n' v'] eqn:E. cbn [fst] in F. subst n'.
  cbn [dget]. destruct (String.eqb_spec k n) as [Q|Q]; [subst n; rewrite E; reflexivity|exact IH].
Qed.

(* what the check of a runtime says *)
Definition run_data (defs : dict val) (k : string) (v' : val) (r : val) : Prop :=
  exists s x, lookup ["runtime"] (merge (rd k defs) v') = Some (VStr s) /\ lookup [s] (merge (rd k defs) v') = Some x /\ r = x /\ truthy x = true.
Definition can_start (r : val) : Prop :=
  (exists d, r = VDict d /\ In "up" (dkeys d)) \/ (exists l, r = VList l /\ In (VStr "up") l) \/ (exists s, r = VStr s /\ occurs "up" s).
Definition container (r : val) : Prop := (exists d, r = VDict d) \/ (exists l, r = VList l) \/ (exists s, r = VStr s).
Definition runtime_crash (defs : dict val) (k : string) (v' : val) : Prop :=
  lookup ["runtime"] (merge (rd k defs) v') = None
  \/ (exists x, lookup ["runtime"] (merge (rd k defs) v') = Some x /\ ((exists d, x = VDict d) \/ exists l, x = VList l))
  \/ (exists r, run_data defs k v' r /\ ~ container r).
Definition runtime_valid (defs : dict val) (k : string) (v' : val) : Prop := exists r, run_data defs k v' r /\ can_start r.

Lemma runtime_ok_spec : forall defs k v',
  (runtime_ok defs k v' = None <-> runtime_crash defs k v') /\ (runtime_ok defs k v' = Some true <-> runtime_valid defs k v').
Proof.
  intros defs k v'. unfold runtime_ok, runtime_crash, runtime_valid, run_data. cbv zeta. set (t := merge (rd k defs) v'). clearbody t.
  assert (L : forall j, lookup [j] t = dget j (entries t)).
  { intros j. destruct (lookup [j] t) as [x|] eqn:Q; [apply lookup_entries in Q; congruence|]. destruct (dget j (entries t)) as [x|] eqn:G; [|reflexivity]. apply lookup_entries in G. congruence. }
  unfold rd. rewrite !L. destruct (dget "runtime" (entries t)) as [x|] eqn:R.
  2:{ split; [split; [intros _; left; reflexivity|reflexivity]|]. split; [intros Q; discriminate Q|]. intros [r [[s [y [Q _]]] _]]. discriminate Q. }
  destruct x as [|b|z|s|l|d].
  1,2,3: split; (split; [intros Q; discriminate Q|]); [intros [Q|[[y [Q [[d E]|[l E]]]]|[r [[s [y [Q _]]] _]]]]|intros [r [[s [y [Q _]]] _]]]; congruence.
  2,3: split; [split; [intros _; right; left; eexists; split; [reflexivity|eauto]|reflexivity]|]; split; [intros Q; discriminate Q|]; intros [r [[s [y [Q _]]] _]]; discriminate Q.
  destruct (dget s (entries t)) as [x|] eqn:G.
  2:{ cbn [truthy empty_box]. split; (split; [intros Q; discriminate Q|]).
      - intros [Q|[[y [Q [[d E]|[l E]]]]|[r [[s' [y [Q [Q' _]]]] _]]]]; [discriminate Q|congruence|congruence|]. injection Q as Q. subst s'. rewrite L, G in Q'. discriminate Q'.
      - intros [r [[s' [y [Q [Q' _]]]] _]]. injection Q as Q. subst s'. rewrite L, G in Q'. discriminate Q'. }
  destruct (truthy x) eqn:T.
  2:{ split; (split; [intros Q; discriminate Q|]).
      - intros [Q|[[y [Q [[d E]|[l E]]]]|[r [[s' [y [Q [Q' [_ T']]]]] _]]]]; [discriminate Q|congruence|congruence|]. injection Q as Q. subst s'. rewrite L, G in Q'. injection Q' as Q'. congruence.
      - intros [r [[s' [y [Q [Q' [_ T']]]]] _]]. injection Q as Q. subst s'. rewrite L, G in Q'. injection Q' as Q'. congruence. }
  assert (RX : forall r, (exists s0 x0, Some (VStr s) = Some (VStr s0) /\ lookup [s0] t = Some x0 /\ r = x0 /\ truthy x0 = true) <-> r = x).
  { intros r. split.
    - intros [s0 [x0 [Q [Q' [E _]]]]]. injection Q as Q. subst s0. rewrite L, G in Q'. congruence.
    - intros E. subst r. exists s, x. split; [reflexivity|]. split; [rewrite L; exact G|]. split; [reflexivity|exact T]. }
  assert (TI : (text_in "up" x = None <-> ~ container x) /\ (text_in "up" x = Some true <-> can_start x)).
  { clear. unfold container, can_start. destruct x as [|b|z|s|l|d]; cbn [text_in].
    1,2,3: split; [split; [intros _ [[d E]|[[l E]|[s E]]]; discriminate E|reflexivity]|]; split; [intros Q; discriminate Q|]; intros [[d [E _]]|[[l [E _]]|[s [E _]]]]; discriminate E.
    - split; [split; [intros Q; discriminate Q|intros N; exfalso; apply N; eauto]|]. split.
      + intros Q. injection Q as Q. right. right. exists s. split; [reflexivity|]. apply contains_spec. exact Q.
      + intros [[d [E _]]|[[l [E _]]|[s' [E O]]]]; try discriminate E. injection E as E. subst s'. apply contains_spec in O. rewrite O. reflexivity.
    - split; [split; [intros Q; discriminate Q|intros N; exfalso; apply N; eauto]|]. split.
      + intros Q. right. left. exists l. split; [reflexivity|]. apply veqb_in. congruence.
      + intros [[d [E _]]|[[l' [E O]]|[s' [E _]]]]; try discriminate E. injection E as E. subst l'. apply veqb_in in O. rewrite O. reflexivity.
    - split; [split; [intros Q; discriminate Q|intros N; exfalso; apply N; eauto]|]. split.
      + intros Q. left. exists d. split; [reflexivity|]. apply dmem_true. congruence.
      + intros [[d' [E O]]|[[l' [E _]]|[s' [E _]]]]; try discriminate E. injection E as E. subst d'. apply dmem_true in O. rewrite O. reflexivity. }
  destruct TI as [TI1 TI2]. rewrite TI1, TI2. split; split.
  - intros N. right. right. exists x. split; [apply RX; reflexivity|exact N].
  - intros [Q|[[y [Q [[d E]|[l E]]]]|[r [Q N]]]]; [discriminate Q|congruence|congruence|]. apply RX in Q. subst r. exact N.
  - intros C. exists x. split; [apply RX; reflexivity|exact C].
  - intros [r [Q C]]. apply RX in Q. subst r. exact C.
Qed.

Lemma check_runtimes_spec : forall defs ts,
  ((exists e, check_runtimes defs ts = Err e) <-> exists k v, In (k, v) ts /\ runtime_ok defs k v = None) /\
  (forall es, check_runtimes defs ts = Ok es -> forall e, In e es <-> exists k v, In (k, v) ts /\ runtime_ok defs k v = Some false /\ e = EBadRuntime k).
Proof.
  intros defs. induction ts as [|[k v] r [IH1 IH2]]; cbn [check_runtimes].
  - split; [split; [intros [e H]; discriminate H|intros [k [v [[] _]]]]|]. intros es H e. injection H as H. subst es. split; [intros []|intros [k [v [[] _]]]].
  - destruct (runtime_ok defs k v) as [ok|] eqn:R.
    + destruct (check_runtimes defs r) as [es'|e'] eqn:C.
      * split.
        -- split; [intros [e H]; discriminate H|]. intros [k' [v' [[E|I] Q]]]; [injection E as E1 E2; subst k' v'; congruence|].
           destruct (proj2 IH1) as [e E]; [exists k', v'; auto|discriminate E].
        -- intros es H e. injection H as H. subst es. rewrite in_app_iff, (IH2 es' eq_refl). split.
           ++ intros [Q|[k' [v' [I Q]]]]; [|exists k', v'; split; [right; exact I|exact Q]]. destruct ok; [destruct Q|]. destruct Q as [Q|[]]. exists k, v. split; [left; reflexivity|]. split; [exact R|auto].
           ++ intros [k' [v' [[E|I] [Q1 Q2]]]]; [|right; exists k', v'; auto]. injection E as E1 E2. subst k' v'. rewrite R in Q1. injection Q1 as Q1. subst ok. left. left. auto.
      * split; [|intros es H; discriminate H]. split; [intros _|intros _; exists e'; reflexivity]. destruct (proj1 IH1) as [k' [v' [I Q]]]; [exists e'; reflexivity|]. exists k', v'. split; [right; exact I|exact Q].
    + split; [|intros es H; discriminate H]. split; [intros _|intros _; eexists; reflexivity]. exists k, v. split; [left; reflexivity|exact R].
Qed.

Lemma final_unique : forall defs k v a b, tool_final defs k v a -> tool_final defs k v b -> a = b.
Proof.
  intros defs k v a b [[A1 [A2 A3]]|[A1 A2]] [[B1 [B2 B3]]|[B1 B2]]; try congruence; exfalso.
  - destruct B1 as [B1|B1]; contradiction.
  - destruct A1 as [A1|A1]; contradiction.
Qed.

Theorem tools_exact : forall defs tools, NoDup (dkeys defs) -> NoDup (dkeys tools) ->
  ((exists e, process_tools defs tools = Err e) <->
   exists k v v', tool_source defs tools k v /\ tool_final defs k v v' /\ runtime_crash defs k v')
  /\ forall tools' es, process_tools defs tools = Ok (tools', es) ->
     (forall k v', dget k tools' = Some v' <-> exists v, tool_source defs tools k v /\ tool_final defs k v v')
     /\ (forall e, In e es <-> exists k v', dget k tools' = Some v' /\
          ((e = EBadTool k /\ ~ In k (dkeys defs)) \/ (e = EBadRuntime k /\ ~ runtime_valid defs k v'))).
Proof.
  intros defs tools ND NT. unfold process_tools, validate_tools.
  set (ct := copy_default_tools defs tools). assert (NC : NoDup (dkeys ct)) by (apply copy_tools_NoDup; exact NT).
  assert (SRC : forall k v, dget k ct = Some v <-> tool_source defs tools k v) by (intros k v; apply copy_source; exact ND). clearbody ct.
  change (fun kv : string * val => if dmem (fst kv) defs && negb (dmem "runtime" (entries (snd kv))) then (fst kv, VDict (dset "runtime" (VStr "docker") (entries (snd kv)))) else kv) with (vt defs).
  set (t2 := map (vt defs) ct).
  assert (KE : dkeys t2 = dkeys ct). { unfold t2, dkeys. rewrite map_map. apply map_ext. intros kv. apply vt_fst. }
  assert (N2 : NoDup (dkeys t2)) by (rewrite KE; exact NC).
  assert (G2 : forall k v', dget k t2 = Some v' <-> exists v, tool_source defs tools k v /\ tool_final defs k v v').
  { intros k v'. unfold t2. rewrite dget_map_vt. split.
    - intros H. destruct (dget k ct) as [v|] eqn:G; [|discriminate H]. injection H as H. exists v. split; [apply SRC; exact G|]. rewrite <- H. apply vt_final.
    - intros [v [S F]]. apply SRC in S. rewrite S. f_equal. exact (final_unique _ _ _ _ _ (vt_final defs k v) F). }
  clearbody t2.
  destruct (check_runtimes_spec defs t2) as [CE CO]. split.
  - assert (X : (exists e, match check_runtimes defs t2 with Ok e2 => Ok (t2, flat_map (fun kv : string * val => if dmem (fst kv) defs then [] else [EBadTool (fst kv)]) ct ++ e2) | Err e => Err e end = Err e)
              <-> exists e, check_runtimes defs t2 = Err e).
    { destruct (check_runtimes defs t2) as [e2|e]; split; intros [x H]; try discriminate H; exists e; reflexivity. }
    rewrite X, CE. split.
    + intros [k [v' [I R]]]. apply (dget_NoDup _ _ _ N2) in I. apply G2 in I. destruct I as [v [S F]]. exists k, v, v'. split; [exact S|]. split; [exact F|]. apply runtime_ok_spec. exact R.
    + intros [k [v [v' [S [F C]]]]]. exists k, v'. split; [apply dget_In; apply G2; exists v; auto|]. apply runtime_ok_spec. exact C.
  - intros tools' es H. destruct (check_runtimes defs t2) as [e2|e]; [|discriminate H]. injection H as H1 H2. subst tools'. split; [exact G2|].
    intros e. rewrite <- H2, in_app_iff, (CO e2 eq_refl), in_flat_map. split.
    + intros [[[k v] [I Q]]|[k [v' [I [R E]]]]].
      * cbn [fst] in Q. destruct (dmem k defs) eqn:K; [destruct Q|]. destruct Q as [Q|[]]. apply (dget_NoDup _ _ _ NC) in I.
        assert (KI : In k (dkeys t2)) by (rewrite KE; apply (dget_Some_key _ _ I)). destruct (dget k t2) as [v'|] eqn:G; [|apply dget_None in G; contradiction].
        exists k, v'. split; [exact G|]. left. split; [auto|]. intros Z. apply dmem_true in Z. congruence.
      * exists k, v'. split; [apply (dget_NoDup _ _ _ N2); exact I|]. right. split; [exact E|]. intros V. apply runtime_ok_spec in V. congruence.
    + intros [k [v' [G [[E K]|[E V]]]]].
      * left. assert (KI : In k (dkeys ct)) by (rewrite <- KE; apply (dget_Some_key _ _ G)). destruct (dget k ct) as [v|] eqn:C; [|apply dget_None in C; contradiction].
        exists (k, v). split; [apply dget_In; exact C|]. cbn [fst]. destruct (dmem k defs) eqn:Z; [exfalso; apply K; apply dmem_true; exact Z|]. left. auto.
      * right. exists k, v'. split; [apply dget_In; exact G|]. split; [|exact E].
        destruct (runtime_ok defs k v') as [[|]|] eqn:R; [exfalso; apply V; apply runtime_ok_spec; exact R|reflexivity|].
        exfalso. destruct (proj2 CE) as [x X]; [exists k, v'; split; [apply dget_In; exact G|exact R]|]. discriminate X.
Qed.

(* A tool that is not known is not reported when it has no runtime: the transformation crashes. *)
Theorem unknown_tool_reported_refuted : exists defs tools k,
  In k (dkeys tools) /\ ~ In k (dkeys defs) /\ process_tools defs tools = Err (ECrash k).
Proof.
  exists [("graphite", VDict [("docker", VDict [("up", VStr "x")])])], [("grafit", VDict [])], "grafit".
  split; [left; reflexivity|]. split; [intros [Q|[]]; discriminate Q|]. vm_compute. reflexivity.
Qed.

(* The runtime set in tool defaults is not used for tools mentioned in the topology. *)
Theorem default_runtime_used_refuted : exists defs tools k r tools' es v,
  lookup [k; "runtime"] (VDict defs) = Some (VStr r) /\ In k (dkeys tools) /\ lookup [k; "runtime"] (VDict tools) = None
  /\ process_tools defs tools = Ok (tools', es) /\ es = [] /\ lookup [k; "runtime"] (VDict tools') = Some (VStr v) /\ v <> r.
Proof.
  exists [("suzieq", VDict [("runtime", VStr "podman"); ("podman", VDict [("up", VStr "x")]); ("docker", VDict [("up", VStr "y")])])], [("suzieq", VDict [])], "suzieq", "podman".
  do 2 eexists. exists "docker". split; [reflexivity|]. split; [left; reflexivity|]. split; [reflexivity|]. split; [vm_compute; reflexivity|]. split; [reflexivity|]. split; [reflexivity|discriminate].
Qed.

Example tools_case :
  process_tools [("a", VDict [("docker", VDict [("up", VStr "x")])]); ("b", VDict [("enabled", VBool true); ("runtime", VStr "lxd"); ("docker", VDict [("up", VNull)])]); ("c", VDict [])]
                [("x", VDict [("runtime", VStr "docker")]); ("a", VDict [("k", VInt 1)])] =
  Ok ([("x", VDict [("runtime", VStr "docker")]); ("a", VDict [("k", VInt 1); ("runtime", VStr "docker")]);
       ("b", VDict [("enabled", VBool true); ("runtime", VStr "lxd"); ("docker", VDict [("up", VNull)])])],
      [EBadTool "x"; EBadRuntime "x"; EBadRuntime "b"]).
Proof. vm_compute. reflexivity. Qed.

Print Assumptions support_lists_exact.
Print Assumptions support_lists_others.
Print Assumptions device_features_exact.
Print Assumptions support_stops_exact.
Print Assumptions daemons_exact.
Print Assumptions device_checks_exact.
Print Assumptions device_definitions_exact.
Print Assumptions tools_exact.
Print Assumptions unknown_tool_reported_refuted.
Print Assumptions default_runtime_used_refuted.
