(* Property C156: plugins, their defaults and their order. *)
From Coq Require Import String Ascii ZArith Lia Bool List Permutation.
From Verif Require Import Base Box_Model Box_Props Text_Model Sort_Model Sort_Props Defs_Model Defs_Props.
Import ListNotations.
Local Open Scope string_scope.
Local Open Scope list_scope.

(* ------------------------------------------------------------------ *)
(* Defaults of one plugin                                               *)

(* Important values of a plugin replace everything else, its other values are used only when nothing else is known. *)
Theorem plugin_defaults_order : forall p d q v, p <> [] -> wf d -> wf (VDict p) ->
  (dget "important" p = None ->
   leaf q (merge_plugin_defaults p d) v <-> leaf q d v \/ (leaf q (VDict p) v /\ ~ overridden q d)) /\
  (forall i, dget "important" p = Some i ->
   leaf q (merge_plugin_defaults p d) v <->
   leaf q i v \/
   (~ overridden q i /\
    (leaf q d v \/ (leaf q (VDict (dpop "important" p)) v /\ ~ overridden q d)))).
Proof.
  intros p d q v NE WD WP. unfold merge_plugin_defaults. destruct p as [|kv r]; [exfalso; apply NE; reflexivity|]. clear NE.
  set (p := kv :: r) in *. clearbody p. split.
  - intros N. rewrite N. rewrite merge_leaves by exact WD.
    assert (E : dpop "important" p = p).
    { clear -N. induction p as [|[k x] t IH]; [reflexivity|]. cbn [dget dpop] in N |- *.
      destruct (String.eqb "important" k); [discriminate N|]. f_equal. exact (IH N). }
    rewrite E. reflexivity.
  - intros i I. rewrite I. rewrite merge_leaves by exact (wf_dget _ _ _ WP I). rewrite merge_leaves by exact WD. tauto.
Qed.

(* ------------------------------------------------------------------ *)
(* Loading                                                              *)

Lemma tc_sub : forall (A : Type) (R S : A -> A -> Prop) x y, (forall a b, R a b -> S a b) ->
  Relation_Operators.clos_trans A R x y -> Relation_Operators.clos_trans A S x y.
Proof.
  intros A R S x y H T. induction T as [a b I|a b c _ T1 _ T2].
  - apply Relation_Operators.t_step. exact (H a b I).
  - exact (Relation_Operators.t_trans _ _ _ _ _ T1 T2).
Qed.

Section Find.
Variable find : string -> string -> option pmod.

(* no plugin is redirected to another one *)
Definition no_redirect : Prop := forall p n m, find p n = Some m -> m_redirect m = None.

(* the plugin is found in the first directory that has it *)
Definition found (paths : list string) (n : string) (m : pmod) : Prop :=
  exists p1 p p2, paths = p1 ++ p :: p2 /\ find p n = Some m /\ forall x, In x p1 -> find x n = None.

Definition not_found (paths : list string) (n : string) : Prop := forall p, In p paths -> find p n = None.

Lemma search_plain : no_redirect -> forall fuel paths n st,
  match search_plugin find fuel paths n st with
  | (Some m, st') => found paths n m /\ st' = (fst st, merge_plugin_defaults (m_defaults m) (snd st))
  | (None, st') => not_found paths n /\ st' = st
  end.
Proof.
  intros NR fuel paths n. induction paths as [|p r IH]; intros st; cbn [search_plugin].
  - split; [intros p []|reflexivity].
  - assert (L : load_plugin find fuel p n st =
      match find p n with Some m => (Some m, (fst st, merge_plugin_defaults (m_defaults m) (snd st))) | None => (None, st) end).
    { destruct fuel; cbn [load_plugin]; destruct (find p n) as [m|] eqn:F; try reflexivity; rewrite (NR _ _ _ F); reflexivity. }
    rewrite L. destruct (find p n) as [m|] eqn:F.
    + split; [|reflexivity]. exists [], p, r. split; [reflexivity|]. split; [exact F|intros x []].
    + specialize (IH st). destruct (search_plugin find fuel r n st) as [[m|] st'].
      * destruct IH as [[p1 [q [p2 [E [G A]]]]] S]. split; [|exact S]. exists (p :: p1), q, p2.
        split; [rewrite E; reflexivity|]. split; [exact G|]. intros x [Q|Q]; [subst; exact F|exact (A x Q)].
      * destruct IH as [A S]. split; [|exact S]. intros x [Q|Q]; [subst; exact F|exact (A x Q)].
Qed.

Lemma found_unique : forall paths n m m', found paths n m -> found paths n m' -> m = m'.
Proof.
  intros paths n m m' [p1 [p [p2 [E [F A]]]]] [q1 [q [q2 [E' [F' A']]]]]. subst paths. revert q1 E' A'.
  induction p1 as [|x r IH]; intros q1 E' A'.
  - destruct q1 as [|y s]; cbn [app] in E'; injection E' as E1 E2.
    + subst q. rewrite F in F'. injection F' as F'. exact F'.
    + subst y. rewrite (A' p (or_introl eq_refl)) in F. discriminate F.
  - destruct q1 as [|y s]; cbn [app] in E'; injection E' as E1 E2.
    + subst q. rewrite (A x (or_introl eq_refl)) in F'. discriminate F'.
    + apply (IH (fun z I => A z (or_intror I)) s E2). intros z I. apply A'. right; exact I.
Qed.

Lemma found_or : forall paths n, (exists m, found paths n m) \/ not_found paths n.
Proof.
  intros paths n. induction paths as [|p r IH]; [right; intros p []|].
  destruct (find p n) as [m|] eqn:F.
  - left. exists m, [], p, r. split; [reflexivity|]. split; [exact F|intros x []].
  - destruct IH as [[m [p1 [q [p2 [E [G A]]]]]]|N].
    + left. exists m, (p :: p1), q, p2. split; [rewrite E; reflexivity|]. split; [exact G|].
      intros x [Q|Q]; [subst; exact F|exact (A x Q)].
    + right. intros x [Q|Q]; [subst; exact F|exact (N x Q)].
Qed.

Lemma found_not : forall paths n m, found paths n m -> not_found paths n -> False.
Proof.
  intros paths n m [p1 [p [p2 [E [F A]]]]] N. rewrite (N p) in F; [discriminate F|]. rewrite E. apply in_app_iff. right; left; reflexivity.
Qed.

(* the plugins' defaults one after another *)
Definition all_defaults (mods : list pmod) (d : val) : val := fold_left (fun d m => merge_plugin_defaults (m_defaults m) d) mods d.

Lemma load_plain : no_redirect -> forall fuel paths l st st' e, load_plugins find fuel paths l st = (st', e) ->
  p_names st' = p_names st /\
  (forall n, In (PLoad n) e <-> In n l /\ not_found paths n) /\
  exists ms, p_mods st' = p_mods st ++ ms /\ p_defaults st' = all_defaults ms (p_defaults st) /\
    (e = [] -> Forall2 (found paths) l ms).
Proof.
  intros NR fuel paths. induction l as [|n r IH]; intros st st' e H; cbn [load_plugins] in H.
  - injection H as H1 H2. subst. split; [reflexivity|]. split; [intros n; split; [intros []|intros [[] _]]|].
    exists []. split; [rewrite app_nil_r; reflexivity|]. split; [reflexivity|]. intros _; constructor.
  - pose proof (search_plain NR fuel paths n (p_names st, p_defaults st)) as S.
    destruct (search_plugin find fuel paths n (p_names st, p_defaults st)) as [[m|] [ns d]].
    + destruct S as [F S]. injection S as S1 S2. subst ns d. destruct (IH _ _ _ H) as [I1 [I2 [ms [I3 [I4 I5]]]]].
      cbn [p_names p_mods p_defaults fst snd] in *. split; [exact I1|]. split.
      * intros x. rewrite I2. split; [intros [A B]; split; [right; exact A|exact B]|].
        intros [[A|A] B]; [subst x; exfalso; exact (found_not _ _ _ F B)|split; assumption].
      * exists (m :: ms). split; [rewrite I3, <- app_assoc; reflexivity|]. split; [exact I4|].
        intros E. constructor; [exact F|exact (I5 E)].
    + destruct S as [F S]. injection S as S1 S2. subst ns d.
      destruct (load_plugins find fuel paths r (mk_ps (p_names st) (p_mods st) (p_defaults st))) as [st2 e2] eqn:L.
      injection H as H1 H2. subst st2 e. destruct (IH _ _ _ L) as [I1 [I2 [ms [I3 [I4 I5]]]]].
      cbn [p_names p_mods p_defaults] in *. split; [exact I1|]. split.
      * intros x. cbn [In]. rewrite I2. split.
        { intros [A|[A B]]; [injection A as A; subst x; split; [left; reflexivity|exact F]|split; [right; exact A|exact B]]. }
        { intros [[A|A] B]; [subst x; left; reflexivity|right; split; assumption]. }
      * exists ms. split; [exact I3|]. split; [exact I4|]. intros E. discriminate E.
Qed.

Lemma pmap_found : forall paths names mods acc n, Forall2 (found paths) names mods ->
  (forall m, dget n acc = Some m -> found paths n m) -> In n names \/ dget n acc <> None ->
  exists m, dget n (pmap names mods acc) = Some m /\ found paths n m.
Proof.
  intros paths names mods acc n F. revert acc. induction F as [|a m r s FA F IH]; intros acc A I; cbn [pmap].
  - destruct I as [[]|I]. destruct (dget n acc) as [m|] eqn:D; [|exfalso; apply I; reflexivity]. exists m. split; [reflexivity|exact (A m eq_refl)].
  - apply IH.
    + intros x D. destruct (String.eqb_spec n a) as [Q|Q].
      * subst a. rewrite dget_dset_same in D. injection D as D. subst x. exact FA.
      * rewrite dget_dset_other in D by exact Q. exact (A x D).
    + destruct I as [[Q|Q]|Q].
      * subst a. right. rewrite dget_dset_same. discriminate.
      * left; exact Q.
      * right. destruct (String.eqb_spec n a) as [Q2|Q2]; [subst a; rewrite dget_dset_same; discriminate|].
        rewrite dget_dset_other by exact Q2. exact Q.
Qed.

(* what a plugin has to follow *)
Definition follows (paths : list string) (n x : string) : Prop := exists m, found paths n m /\ (In x (m_requires m) \/ In x (m_after m)).

(* A plugin that is not in any directory is reported and nothing is executed. *)
Theorem plugins_missing_exact : no_redirect -> forall fuel paths own def d,
  ((exists e, init_plugins find fuel paths own def d = PErrors e) <-> exists n, In n (own ++ def) /\ not_found paths n) /\
  (forall e n, init_plugins find fuel paths own def d = PErrors e -> (In (PLoad n) e <-> In n (own ++ def) /\ not_found paths n)).
Proof.
  intros NR fuel paths own def d. unfold init_plugins.
  destruct (load_plugins find fuel paths (own ++ def) (mk_ps (own ++ def) [] d)) as [st e] eqn:L.
  destruct (load_plain NR _ _ _ _ _ _ L) as [_ [E _]]. destruct e as [|[n] r].
  - assert (NE : forall x, (match sort_plugins (p_names st) (p_mods st) with Ok (ns, ms) => PDone ns ms (p_defaults st) | Err _ => PLoop end) <> PErrors x).
    { intros x Q. destruct (sort_plugins (p_names st) (p_mods st)) as [[ns ms]|y]; discriminate Q. }
    split.
    + split; [intros [x Q]; exfalso; exact (NE x Q)|]. intros [n Q]. apply E in Q. destruct Q.
    + intros x n Q. exfalso; exact (NE x Q).
  - split.
    + split; [|intros _; eexists; reflexivity]. intros _. exists n. apply E. left; reflexivity.
    + intros x m Q. injection Q as Q. subst x. apply E.
Qed.

(* All plugins of the topology come first, then the default ones; they are sorted so that each of them follows the
   plugins it requires and the ones it wants to be executed after. *)
Theorem plugins_loaded : no_redirect -> forall fuel paths own def d ns ms d',
  init_plugins find fuel paths own def d = PDone ns ms d' ->
  Permutation (own ++ def) ns /\
  Forall2 (fun n m => exists x, m = Some x /\ found paths n x) ns ms /\
  (2 <= length (own ++ def) -> forall a n b x, ns = a ++ n :: b -> follows paths n x -> ~ In x (n :: b)) /\
  exists mods, Forall2 (found paths) (own ++ def) mods /\ d' = all_defaults mods d.
Proof.
  intros NR fuel paths own def d ns ms d' H. unfold init_plugins in H.
  destruct (load_plugins find fuel paths (own ++ def) (mk_ps (own ++ def) [] d)) as [st e] eqn:L.
  destruct (load_plain NR _ _ _ _ _ _ L) as [EN [_ [mods [EM [ED EF]]]]]. destruct e as [|e r]; [|discriminate H].
  specialize (EF eq_refl). cbn [p_names p_mods p_defaults app] in EN, EM, ED.
  rewrite EN, EM, ED in H. clear L EN EM ED st. unfold sort_plugins in H.
  set (pm := pmap (own ++ def) mods []) in *.
  assert (PF : forall n, In n (own ++ def) -> exists m, dget n pm = Some m /\ found paths n m).
  { intros n I. apply (pmap_found paths _ _ _ _ EF); [intros m Q; discriminate Q|left; exact I]. }
  match type of H with match match dependency ?f _ with _ => _ end with _ => _ end = _ => set (dep := f) in * end.
  destruct (dependency dep (own ++ def)) as [out|x] eqn:DP; [|discriminate H].
  injection H as H1 H2 H3. subst ns ms d'. destruct (dependency_sort_sound _ _ _ DP) as [P O].
  split; [exact P|]. split; [|split].
  - assert (IN : forall n, In n out -> In n (own ++ def)) by (intros n I; exact (Permutation_in _ (Permutation_sym P) I)).
    clear -PF IN. induction out as [|n r IH]; cbn [map]; constructor.
    + destruct (PF n (IN n (or_introl eq_refl))) as [m [D F]]. exists m. split; assumption.
    + apply IH. intros x I. apply IN. right; exact I.
  - intros L a n b x E [m [F R]]. apply (O L a n b E x).
    assert (IN : In n (own ++ def)).
    { apply (Permutation_in _ (Permutation_sym P)). rewrite E. apply in_app_iff. right; left; reflexivity. }
    destruct (PF n IN) as [m' [D F']]. rewrite (found_unique _ _ _ _ F F') in R. unfold dep. rewrite D. apply in_app_iff. exact R.
  - exists mods. split; [exact EF|reflexivity].
Qed.

(* Loading fails with a loop exactly when the plugins have to follow each other. *)
Theorem plugin_loop_iff : no_redirect -> forall fuel paths own def d, 2 <= length (own ++ def) ->
  (forall n, In n (own ++ def) -> exists m, found paths n m) ->
  (init_plugins find fuel paths own def d = PLoop <->
   exists n, Relation_Operators.clos_trans string (fun a b => In a (own ++ def) /\ In b (own ++ def) /\ follows paths a b) n n).
Proof.
  intros NR fuel paths own def d L AF. unfold init_plugins.
  destruct (load_plugins find fuel paths (own ++ def) (mk_ps (own ++ def) [] d)) as [st e] eqn:LD.
  destruct (load_plain NR _ _ _ _ _ _ LD) as [EN [EE [mods [EM [ED EF]]]]]. destruct e as [|[n] r].
  2:{ exfalso. destruct (proj1 (EE n) (or_introl eq_refl)) as [I N]. destruct (AF n I) as [m F]. exact (found_not _ _ _ F N). }
  specialize (EF eq_refl). cbn [p_names p_mods p_defaults app] in EN, EM, ED. rewrite EN, EM. clear LD EN EM ED EE.
  unfold sort_plugins. set (pm := pmap (own ++ def) mods []) in *.
  assert (PF : forall n, In n (own ++ def) -> exists m, dget n pm = Some m /\ found paths n m).
  { intros n I. apply (pmap_found paths _ _ _ _ EF); [intros m Q; discriminate Q|left; exact I]. }
  match goal with |- context [dependency ?f _] => set (dep := f) in * end.
  destruct (dependency_sort_fails_iff_cycle dep (own ++ def) L) as [C _].
  assert (EQ : cyclic dep (own ++ def) <->
    exists n, Relation_Operators.clos_trans string (fun a b => In a (own ++ def) /\ In b (own ++ def) /\ follows paths a b) n n).
  { assert (DE : forall a b, In a (own ++ def) -> (In b (dep a) <-> follows paths a b)).
    { intros a b I. destruct (PF a I) as [m [D F]]. unfold dep. rewrite D, in_app_iff. split.
      - intros R. exists m. split; assumption.
      - intros [m' [F' R]]. rewrite (found_unique _ _ _ _ F F'). exact R. }
    unfold cyclic. split; intros [n T]; exists n.
    - refine (tc_sub _ _ _ _ _ _ T). intros a b [A1 [A2 A3]]. split; [exact A1|]. split; [exact A2|]. apply DE; assumption.
    - refine (tc_sub _ _ _ _ _ _ T). intros a b [A1 [A2 A3]]. split; [exact A1|]. split; [exact A2|]. apply DE; assumption. }
  destruct (dependency dep (own ++ def)) as [out|[]].
  - rewrite <- EQ, <- C. split; intros Q; discriminate Q.
  - split; [intros _; apply EQ, C; reflexivity|reflexivity].
Qed.

(* Values of the topology stay unless a plugin has an important value in the same place. *)
Theorem plugin_defaults_kept : forall mods d q v, wf d -> (forall m, In m mods -> wf (VDict (m_defaults m))) ->
  (forall m i, In m mods -> dget "important" (m_defaults m) = Some i -> ~ overridden q i) ->
  leaf q d v -> leaf q (all_defaults mods d) v.
Proof.
  induction mods as [|m r IH]; intros d q v W WM NI L; [exact L|]. unfold all_defaults. cbn [fold_left].
  fold (all_defaults r (merge_plugin_defaults (m_defaults m) d)).
  assert (WMM : wf (VDict (m_defaults m))) by (apply WM; left; reflexivity).
  assert (L1 : wf (merge_plugin_defaults (m_defaults m) d) /\ leaf q (merge_plugin_defaults (m_defaults m) d) v).
  { destruct (m_defaults m) as [|kv t] eqn:E; [split; [exact W|exact L]|].
    destruct (plugin_defaults_order (kv :: t) d q v ltac:(discriminate) W WMM) as [P1 P2].
    split.
    - unfold merge_plugin_defaults. cbn match.
      assert (W1 : wf (merge (VDict (dpop "important" (kv :: t))) d)).
      { apply merge_wf; [|exact W]. clear -WMM. set (p := kv :: t) in *. clearbody p.
        pose proof WMM as W2. apply wf_VDict in W2. destruct W2 as [N A]. apply wf_VDict. split.
        - clear A WMM. induction p as [|[k x] s IP]; [constructor|]. cbn [dpop]. inversion N as [|? ? N1 N2]; subst.
          destruct (String.eqb "important" k); [exact (IP N2)|]. cbn [dkeys map fst]. constructor; [|exact (IP N2)].
          intros I. apply N1. apply in_map_iff in I. destruct I as [[k1 x1] [E I]]. cbn [fst] in E. subst k1.
          apply in_map_iff. exists (k, x1). split; [reflexivity|]. clear -I. induction s as [|[a b] s IR]; [exact I|].
          cbn [dpop] in I. destruct (String.eqb "important" a); [right; exact (IR I)|]. destruct I as [I|I]; [left; exact I|right; exact (IR I)].
        - intros k1 x1 I. apply (A k1 x1). clear -I. induction p as [|[a b] s IR]; [exact I|].
          cbn [dpop] in I. destruct (String.eqb "important" a); [right; exact (IR I)|]. destruct I as [I|I]; [left; exact I|right; exact (IR I)]. }
      destruct (dget "important" (kv :: t)) as [i|] eqn:I; [|exact W1]. apply merge_wf; [exact W1|exact (wf_dget _ _ _ WMM I)].
    - destruct (dget "important" (kv :: t)) as [i|] eqn:I.
      + apply (P2 i eq_refl). right. split; [|left; exact L]. apply (NI m i (or_introl eq_refl)). rewrite E. exact I.
      + apply (P1 eq_refl). left; exact L. }
  apply IH; [exact (proj1 L1)|intros x I; apply WM; right; exact I| |exact (proj2 L1)].
  intros x i I. apply (NI x i). right; exact I.
Qed.

(* A plugin that is redirected is replaced in the list of plugins. *)
Theorem plugin_redirected : forall fuel path old new m0 m d,
  find path old = Some m0 -> m_redirect m0 = Some new -> find path new = Some m -> m_redirect m = None ->
  init_plugins find (S fuel) [path] [old] [] d = PDone [new] [Some m] (merge_plugin_defaults (m_defaults m) d).
Proof.
  intros fuel path old new m0 m d F0 R0 F R. unfold init_plugins. cbn [app load_plugins search_plugin p_names p_defaults].
  cbn [load_plugin]. rewrite F0, R0.
  assert (L : forall st, load_plugin find fuel path new st = (Some m, (fst st, merge_plugin_defaults (m_defaults m) (snd st)))).
  { intros st. destruct fuel; cbn [load_plugin]; rewrite F, R; reflexivity. }
  rewrite L. cbn [map fst snd p_names p_mods p_defaults app]. rewrite String.eqb_refl.
  unfold sort_plugins. cbn [p_names p_mods p_defaults pmap dset dependency map dget]. rewrite String.eqb_refl. reflexivity.
Qed.
End Find.

(* Requirements that are not met. *)
Theorem requirements_exact : forall plugins modules m r,
  In r (missing_requirements plugins modules m) <-> In r (m_requires m) /\ ~ In r plugins /\ ~ In r modules.
Proof.
  intros plugins modules m r. unfold missing_requirements. rewrite filter_In, andb_true_iff, !negb_true_iff, !memS_false. tauto.
Qed.

(* A plugin that is in the topology and in the defaults is loaded and executed twice. *)
Definition ex_find (path name : string) : option pmod :=
  if String.eqb path "user" then
    if String.eqb name "mine" then Some (mk_pmod None [("bgp", VDict [("timer", VInt 5)])] ["bgp.session"] []) else None
  else if String.eqb name "bgp.session" then
    Some (mk_pmod None [("bgp", VDict [("timer", VInt 10); ("gtsm", VBool true)]); ("important", VDict [("device", VStr "frr")])] [] ["bgp.utils"])
  else if String.eqb name "bgp.utils" then Some (mk_pmod None [] [] [])
  else if String.eqb name "bgp.old" then Some (mk_pmod (Some "bgp.session") [] [] [])
  else None.

Theorem plugin_twice_refuted : exists m, ex_find "system" "bgp.session" = Some m /\
  exists d, init_plugins ex_find 0 ["user"; "system"] ["bgp.session"] ["bgp.session"] (VDict []) =
            PDone ["bgp.session"; "bgp.session"] [Some m; Some m] d.
Proof. eexists. split; [reflexivity|]. eexists. reflexivity. Qed.

Example ex_plugins : exists ms,
  init_plugins ex_find 0 ["user"; "system"] ["mine"; "bgp.session"] ["bgp.utils"] (VDict [("device", VStr "eos")]) =
  PDone ["bgp.utils"; "bgp.session"; "mine"] ms (VDict [("bgp", VDict [("timer", VInt 5); ("gtsm", VBool true)]); ("device", VStr "frr")]).
Proof. eexists. reflexivity. Qed.

Example ex_redirected : exists m d, ex_find "system" "bgp.session" = Some m /\
  init_plugins ex_find 1 ["system"] ["bgp.old"] [] (VDict []) = PDone ["bgp.session"] [Some m] d.
Proof. eexists _, _. split; [reflexivity|]. reflexivity. Qed.

Example ex_no_redirect : no_redirect (fun p n => if String.eqb n "bgp.old" then None else ex_find p n).
Proof.
  intros p n m H. unfold ex_find in H. destruct (String.eqb n "bgp.old"); [discriminate H|].
  destruct (String.eqb p "user"); [destruct (String.eqb n "mine"); [injection H as H; subst; reflexivity|discriminate H]|].
  destruct (String.eqb n "bgp.session"); [injection H as H; subst; reflexivity|].
  destruct (String.eqb n "bgp.utils"); [injection H as H; subst; reflexivity|discriminate H].
Qed.

Print Assumptions plugin_defaults_order.
Print Assumptions plugins_missing_exact.
Print Assumptions plugins_loaded.
Print Assumptions plugin_loop_iff.
Print Assumptions plugin_defaults_kept.
Print Assumptions plugin_redirected.
Print Assumptions requirements_exact.
Print Assumptions plugin_twice_refuted.
