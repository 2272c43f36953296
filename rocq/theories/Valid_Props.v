(* Properties of the attribute validation engine (Valid_Model). *)
From Coq Require Import String Ascii ZArith Lia Bool List.
From Verif Require Import Base Box_Model Box_Props Types_Model Valid_Model.
Import ListNotations.
Local Open Scope string_scope.
Local Open Scope list_scope.

(* ---- lists and dictionaries ---- *)

Lemma dset_id : forall A k (v : A) d, dget k d = Some v -> dset k v d = d.
Proof.
  induction d as [|[k' v'] r IH]; simpl; intros H; [discriminate|].
  destruct (String.eqb k k') eqn:E.
  - apply String.eqb_eq in E. injection H as ->. now subst.
  - now rewrite IH.
Qed.

Lemma dkeys_dset_get : forall A k (v w : A) d, dget k d = Some v -> dkeys (dset k w d) = dkeys d.
Proof. intros A k v w d H. apply dkeys_dset_mem. eapply dget_Some_key; eauto. Qed.

Lemma app_nil_iff : forall A (a b : list A), a ++ b = [] <-> a = [] /\ b = [].
Proof. intros A [|x a] b; simpl; split; intros H; try discriminate; auto; destruct H; auto; discriminate. Qed.

Lemma map_nil_iff : forall A B (f : A -> B) l, map f l = [] <-> l = [].
Proof. intros A B f [|x l]; simpl; split; intros H; auto; discriminate. Qed.

Lemma dget_keys : forall A B (d : dict A) (d' : dict B), dkeys d = dkeys d' -> forall k, dmem k d = dmem k d'.
Proof.
  intros A B d d' E k. destruct (dmem k d) eqn:D; symmetry.
  - apply dmem_true. rewrite <- E. now apply dmem_true.
  - destruct (dmem k d') eqn:D'; auto. apply dmem_true in D'. rewrite <- E in D'. apply dmem_true in D'. congruence.
Qed.

(* ---- errors and their paths ---- *)

Definition epath (e : verr) : list pstep :=
  match e with
  | EValue p _ | EKey p _ _ | EAttr p _ | EInvalid p _ | EModule p _ | EMissing p _ | EConflict p _ _ | ERequires p _
  | ENotDict p => p
  end.

Definition under (path : list pstep) (e : verr) : Prop := exists r, epath e = path ++ r.

Lemma under_self : forall e path, epath e = path -> under path e.
Proof. intros e path H. exists []. now rewrite app_nil_r. Qed.

Lemma under_deeper : forall path s e, under (path ++ [s]) e -> under path e.
Proof. intros path s e [r H]. exists (s :: r). now rewrite H, <- app_assoc. Qed.

Lemma under_not_here : forall path s e, under (path ++ [s]) e -> epath e <> path.
Proof.
  intros path s e [r H] E. rewrite E in H. apply (f_equal (@length pstep)) in H.
  rewrite !app_length in H. simpl in H. lia.
Qed.

Lemma check_required_here : forall path d ks e, In e (check_required path d ks) -> epath e = path.
Proof.
  intros path d ks e H. unfold check_required in H. apply in_flat_map in H. destruct H as [[k s] [_ H]].
  destruct (required (snd (k, s)) && negb (dmem (fst (k, s)) d)); simpl in H; [|contradiction].
  destruct H as [<-|[]]. reflexivity.
Qed.

Lemma valid_with_here : forall path ks all attrs rep e, In e (valid_with_loop path ks all attrs rep) ->
  exists a l, e = EConflict path a l.
Proof.
  induction attrs as [|a r IH]; intros rep e H; cbn [valid_with_loop] in H; [contradiction|].
  destruct (with_list ks a) as [ok|]; [|eauto].
  destruct (memS a rep); [eauto|]. cbv zeta in H.
  destruct (filter _ all) as [|x y]; [eauto|].
  destruct H as [<-|H]; [do 2 eexists; reflexivity|eauto].
Qed.

(* ---- loops ---- *)

Section Loop.
Variable S : Type.
Variable proj : S -> dict val.
Variable g : string -> S -> vres (S * list verr).
Variable R : string -> val -> val -> list verr -> Prop.
Hypothesis step : forall k s s' e v, dget k (proj s) = Some v -> g k s = VOk (s', e) ->
  exists w, proj s' = dset k w (proj s) /\ R k v w e.

Lemma each_keys : forall ks s s' es, incl ks (dkeys (proj s)) -> each g ks s = VOk (s', es) ->
  dkeys (proj s') = dkeys (proj s).
Proof.
  induction ks as [|k r IH]; intros s s' es I H; cbn [each] in H.
  - injection H as <- <-. reflexivity.
  - destruct (g k s) as [[s1 e1]| | |] eqn:G; cbn [bind] in H; try discriminate.
    destruct (each g r s1) as [[s2 e2]| | |] eqn:E; cbn [bind] in H; try discriminate.
    injection H as <- <-.
    assert (Ik : In k (dkeys (proj s))) by (apply I; now left).
    destruct (dget k (proj s)) as [v|] eqn:D; [|apply dget_None in D; contradiction].
    destruct (step k s s1 e1 v D G) as [w [P _]].
    assert (K : dkeys (proj s1) = dkeys (proj s)) by (rewrite P; eapply dkeys_dset_get; eauto).
    rewrite <- K. eapply IH; eauto. rewrite K. intros x X. apply I. now right.
Qed.

(* what is known of the processed keys, the other keys and the errors *)
Lemma each_spec : forall ks s s' es, incl ks (dkeys (proj s)) -> each g ks s = VOk (s', es) ->
  (forall k, ~ In k ks -> dget k (proj s') = dget k (proj s)) /\
  (forall k, In k ks -> exists v w e, dget k (proj s') = Some w /\ R k v w e /\ incl e es) /\
  (forall x, In x es -> exists k v w e, In k ks /\ R k v w e /\ In x e).
Proof.
  induction ks as [|k r IH]; intros s s' es I H; cbn [each] in H.
  - injection H as <- <-. split; [auto|split; [intros k []|intros x []]].
  - destruct (g k s) as [[s1 e1]| | |] eqn:G; cbn [bind] in H; try discriminate.
    destruct (each g r s1) as [[s2 e2]| | |] eqn:E; cbn [bind] in H; try discriminate.
    injection H as <- <-.
    assert (Ik : In k (dkeys (proj s))) by (apply I; now left).
    destruct (dget k (proj s)) as [v|] eqn:D; [|apply dget_None in D; contradiction].
    destruct (step k s s1 e1 v D G) as [w [P Rk]].
    assert (K : dkeys (proj s1) = dkeys (proj s)) by (rewrite P; eapply dkeys_dset_get; eauto).
    destruct (IH s1 s2 e2) as [A [B C]]; auto.
    { rewrite K. intros x X. apply I. now right. }
    split; [|split].
    + intros x X. rewrite A by (intros Y; apply X; now right). rewrite P. apply dget_dset_other.
      intros ->. apply X. now left.
    + intros x X. destruct (in_dec string_dec x r) as [Xr|Xr].
      * destruct (B x Xr) as [v0 [w0 [e0 [Q1 [Q2 Q3]]]]]. exists v0, w0, e0. split; [auto|split; [auto|]].
        intros y Y. apply in_or_app. right. now apply Q3.
      * destruct X as [<-|X]; [|contradiction]. exists v, w, e1. split; [|split; [auto|]].
        -- rewrite A by auto. rewrite P. apply dget_dset_same.
        -- intros y Y. apply in_or_app. now left.
    + intros x X. apply in_app_or in X. destruct X as [X|X].
      * exists k, v, w, e1. split; [now left|split; auto].
      * destruct (C x X) as [k0 [v0 [w0 [e0 [Q1 Q2]]]]]. exists k0, v0, w0, e0. split; [now right|auto].
Qed.
(* with unique keys the processed value is the original one *)
Lemma each_values : forall ks s s' es, NoDup ks -> incl ks (dkeys (proj s)) -> each g ks s = VOk (s', es) ->
  forall k v, In k ks -> dget k (proj s) = Some v -> exists w e, dget k (proj s') = Some w /\ R k v w e /\ incl e es.
Proof.
  induction ks as [|k r IH]; intros s s' es N I H; cbn [each] in H; [intros k v []|].
  destruct (g k s) as [[s1 e1]| | |] eqn:G; cbn [bind] in H; try discriminate.
  destruct (each g r s1) as [[s2 e2]| | |] eqn:E; cbn [bind] in H; try discriminate.
  injection H as <- <-. inversion N as [|? ? Nk Nr]; subst.
  assert (Ik : In k (dkeys (proj s))) by (apply I; now left).
  destruct (dget k (proj s)) as [v0|] eqn:D; [|apply dget_None in D; contradiction].
  destruct (step k s s1 e1 v0 D G) as [w [P Rk]].
  assert (K : dkeys (proj s1) = dkeys (proj s)) by (rewrite P; eapply dkeys_dset_get; eauto).
  assert (I1 : incl r (dkeys (proj s1))) by (rewrite K; intros x X; apply I; now right).
  intros x v X Dx. destruct X as [<-|X].
  - assert (v = v0) as -> by congruence. exists w, e1. split; [|split; [auto|]].
    + destruct (each_spec r s1 s2 e2 I1 E) as [A _]. rewrite A by auto. rewrite P. apply dget_dset_same.
    + intros y Y. apply in_or_app. now left.
  - destruct (IH s1 s2 e2 Nr I1 E x v X) as [w1 [f [Q1 [Q2 Q3]]]].
    + rewrite P. rewrite dget_dset_other; auto. intros ->. contradiction.
    + exists w1, f. split; [auto|split; [auto|]]. intros y Y. apply in_or_app. right. now apply Q3.
Qed.
End Loop.

Opaque get_attribute_namespaces get_valid_attributes.

Section Props.
Variable topo : dict val.
Variable types : string -> dict val -> option tspec.
Variable mattrs : string -> dict val.
Variable mods : list string.

Notation run := (run topo types mattrs mods).
Notation attr_step := (attr_step mattrs mods).

Lemma at_key_inv : forall g k d d' ret e, at_key g k d = VOk (d', ret, e) ->
  match dget k d with
  | None => d' = d /\ ret = VBool true /\ e = []
  | Some v => exists w, g v = VOk (Some w, ret, e) /\ d' = dset k w d
  end.
Proof.
  intros g k d d' ret e H. unfold at_key in H. destruct (dget k d) as [v|].
  - destruct (g v) as [[[[w|] r] f]| | |]; cbn [bind] in H; try discriminate. injection H as <- <- <-. eauto.
  - injection H as <- <- <-. auto.
Qed.

(* one attribute of an object *)
Inductive stepR (it : bool -> list pstep -> val -> val -> vres ires) (sub : string -> list pstep -> val -> list string -> vres ires)
  (attributes : dict val) (enabled : list string) (inside : bool) (path : list pstep) (ns ignored : list string)
  (valid : dict val) (k : string) (v : val) : val -> list verr -> Prop :=
| SR_ignored : existsb (fun i => starts_with i k) ignored = true ->
    stepR it sub attributes enabled inside path ns ignored valid k v v []
| SR_valid : forall s w ret e, existsb (fun i => starts_with i k) ignored = false -> dget k valid = Some s ->
    it true (path ++ [PK k]) v s = VOk (Some w, ret, e) ->
    stepR it sub attributes enabled inside path ns ignored valid k v w e
| SR_flag : forall b, existsb (fun i => starts_with i k) ignored = false -> dget k valid = None ->
    In k enabled -> inside = false -> v = VBool b ->
    (if b then can_be "can_be_true" (mattrs k) ns else can_be "can_be_false" attributes ns) = true ->
    stepR it sub attributes enabled inside path ns ignored valid k v v []
| SR_module : forall o ret e, existsb (fun i => starts_with i k) ignored = false -> dget k valid = None ->
    In k enabled -> inside = false -> sub k (path ++ [PK k]) v ns = VOk (o, ret, e) ->
    stepR it sub attributes enabled inside path ns ignored valid k v
      (match v with VNull => ret | _ => match o with Some w => w | None => v end end) e
| SR_notenabled : existsb (fun i => starts_with i k) ignored = false -> dget k valid = None ->
    ~ In k enabled -> inside = false -> In k mods ->
    stepR it sub attributes enabled inside path ns ignored valid k v v [EModule path k]
| SR_unknown : existsb (fun i => starts_with i k) ignored = false -> dget k valid = None ->
    inside = true \/ (~ In k enabled /\ ~ In k mods) ->
    stepR it sub attributes enabled inside path ns ignored valid k v v [EInvalid path k].

Lemma attr_step_inv : forall it sub attributes enabled inside path ns ignored valid k d d' e v,
  dget k d = Some v ->
  attr_step it sub attributes enabled inside path ns ignored valid k d = VOk (d', e) ->
  exists w, d' = dset k w d /\ stepR it sub attributes enabled inside path ns ignored valid k v w e.
Proof.
  intros it sub attributes enabled inside path ns ignored valid k d d' e v D H. unfold Valid_Model.attr_step in H.
  destruct (existsb (fun i => starts_with i k) ignored) eqn:Ig.
  { injection H as <- <-. exists v. split; [symmetry; now apply dset_id|now constructor]. }
  destruct (dget k valid) as [s|] eqn:V.
  { destruct (at_key _ k d) as [[[d1 ret] e1]| | |] eqn:A; cbn [bind] in H; try discriminate. injection H as <- <-.
    apply at_key_inv in A. rewrite D in A. destruct A as [w [G ->]]. exists w. split; [auto|]. eapply SR_valid; eauto. }
  destruct (memS k enabled && negb inside) eqn:M.
  { apply andb_true_iff in M. destruct M as [M Q]. apply memS_true in M. apply negb_true_iff in Q.
    rewrite D in H.
    destruct (match v with
              | VBool true => can_be "can_be_true" (mattrs k) ns
              | VBool false => can_be "can_be_false" attributes ns
              | _ => false
              end) eqn:F.
    - assert (X : VOk (d, []) = VOk (d', e)) by (destruct v as [|[]| | | |]; cbv beta iota in F, H; try discriminate; first [exact H | rewrite F in H; exact H]).
      injection X as <- <-. exists v. split; [symmetry; now apply dset_id|].
      destruct v as [|[]| | | |]; cbv beta iota in F; try discriminate; eapply SR_flag; eauto.
    - assert (X : bind (sub k (path ++ [PK k]) v ns)
         (fun '(o, ret, e) => VOk (dset k (match v with VNull => ret | _ => match o with Some w => w | None => v end end) d, e))
         = VOk (d', e)) by (destruct v as [|[]| | | |]; cbv beta iota in F, H; first [exact H | rewrite F in H; exact H]).
      clear H. destruct (sub k (path ++ [PK k]) v ns) as [[[o ret] e1]| | |] eqn:B; cbn [bind] in X; try discriminate.
      injection X as <- <-. eexists. split; [reflexivity|]. eapply SR_module; eauto. }
  destruct (memS k mods && negb inside) eqn:M2; injection H as <- <-.
  - apply andb_true_iff in M2. destruct M2 as [M2 Q]. apply memS_true in M2. apply negb_true_iff in Q.
    rewrite Q in M. rewrite andb_true_r in M. apply memS_false in M.
    exists v. split; [symmetry; now apply dset_id|]. now apply SR_notenabled.
  - exists v. split; [symmetry; now apply dset_id|]. apply SR_unknown; auto.
    destruct inside; auto. rewrite andb_true_r in M, M2. right. split; now apply memS_false.
Qed.

(* ---- every error is about the validated value or something in it ---- *)

Definition cpath (c : call) : list pstep := match c with CItem _ p _ _ => p | CAttrs p _ _ _ => p end.

Lemma dictionary_under : forall (it : list pstep -> val -> val -> vres ires) at_ attributes path d dt d' ok es,
  (forall q v s o r e, it q v s = VOk (o, r, e) -> Forall (under q) e) ->
  (forall q v n o r e, at_ q v n = VOk (o, r, e) -> Forall (under q) e) ->
  dictionary types it at_ attributes path d dt = VOk (d', ok, es) ->
  Forall (under path) es /\ dkeys d' = dkeys d.
Proof.
  intros it at_ attributes path d dt d' ok es Hit Hat H. unfold dictionary in H.
  destruct (match dget "_keytype" dt with
        | None => VOk (true, [])
        | Some (VStr n) => match types n [] with
                           | None => VFatal
                           | Some t => VOk (forallb (fun k => truthy (fst (alone t [] (VStr k)))) (dkeys d),
                             flat_map (fun k => map (EKey path k) (snd (alone t [] (VStr k)))) (dkeys d))
                           end
        | Some _ => VFatal end) as [[ok0 e0]| | |] eqn:K; cbn [bind] in H; try discriminate.
  assert (U0 : Forall (under path) e0).
  { destruct (dget "_keytype" dt) as [[| | |n| |]|]; try discriminate; [|injection K as <- <-; constructor].
    destruct (types n []) as [t|]; [|discriminate]. injection K as <- <-. apply Forall_forall. intros x X.
    apply in_flat_map in X. destruct X as [k [_ X]]. apply in_map_iff in X. destruct X as [y [<- _]]. now apply under_self. }
  match type of H with bind ?X _ = _ => destruct X as [[[d1 ok1] e1]| | |] eqn:B end; cbn [bind] in H; try discriminate.
  assert (U1 : Forall (under path) e1 /\ dkeys d1 = dkeys d).
  { destruct (dget "_subtype" dt) as [st|]; [|injection B as <- <- <-; auto].
    match type of B with each ?g _ _ = _ => set (gg := g) in B end.
    assert (ST : forall k s s' e v, dget k (fst s) = Some v -> gg k s = VOk (s', e) ->
       exists w, fst s' = dset k w (fst s) /\ Forall (under (path ++ [PK k])) e).
    { intros k [x0 ok3] [x1 ok4] e v D G. unfold gg in G. cbn [fst] in *.
      match type of G with bind ?X _ = _ => destruct X as [[[y r] f]| | |] eqn:A end; cbn [bind] in G; try discriminate.
      injection G as <- <- <-. apply at_key_inv in A. rewrite D in A. destruct A as [w [Q ->]]. exists w. split; auto.
      destruct st as [| | |n| |]; try (eapply Hit; exact Q). destruct (dmem n attributes); [eapply Hat|eapply Hit]; exact Q. }
    assert (I : incl (dkeys d) (dkeys (fst (d, ok0)))) by apply incl_refl.
    split.
    - destruct (each_spec _ fst gg (fun k _ _ e => Forall (under (path ++ [PK k])) e) ST _ _ _ _ I B) as [_ [_ C]].
      apply Forall_forall. intros x X. destruct (C x X) as [k [v [w [e [_ [F Y]]]]]].
      rewrite Forall_forall in F. eapply under_deeper. now apply F.
    - exact (each_keys _ fst gg (fun k _ _ e => Forall (under (path ++ [PK k])) e) ST _ _ _ _ I B). }
  destruct U1 as [U1 K1].
  destruct (dget "_keys" dt) as [ks|].
  2:{ injection H as <- <- <-. split; auto. apply Forall_app. auto. }
  match type of H with bind ?X _ = _ => destruct X as [[[d2 ok2] e2]| | |] eqn:C end; cbn [bind] in H; try discriminate.
  assert (U2 : Forall (under path) e2 /\ dkeys d2 = dkeys d1).
  { match type of C with each ?g _ _ = _ => set (gg := g) in C end.
    assert (ST : forall k s s' e v, dget k (fst s) = Some v -> gg k s = VOk (s', e) ->
       exists w, fst s' = dset k w (fst s) /\ Forall (under path) e).
    { intros k [x0 ok3] [x1 ok4] e v D G. unfold gg in G. cbn [fst] in *.
      destruct (dget k (entries ks)) as [s|].
      - match type of G with bind ?X _ = _ => destruct X as [[[y r] f]| | |] eqn:A end; cbn [bind] in G; try discriminate.
        injection G as <- <- <-. apply at_key_inv in A. rewrite D in A. destruct A as [w [Q ->]]. exists w. split; auto.
        eapply Forall_impl; [|eapply Hit; exact Q]. intros z. apply under_deeper.
      - injection G as <- <- <-. exists v. split; [symmetry; now apply dset_id|].
        constructor; [now apply under_self|constructor]. }
    assert (I : incl (dkeys d1) (dkeys (fst (d1, ok1)))) by apply incl_refl.
    split.
    - destruct (each_spec _ fst gg (fun k _ _ e => Forall (under path) e) ST _ _ _ _ I C) as [_ [_ Q]].
      apply Forall_forall. intros x X. destruct (Q x X) as [k [v [w [e [_ [F Y]]]]]].
      rewrite Forall_forall in F. now apply F.
    - exact (each_keys _ fst gg (fun k _ _ e => Forall (under path) e) ST _ _ _ _ I C). }
  destruct U2 as [U2 K2].
  destruct ok2; injection H as <- <- <-; (split; [|congruence]); repeat (apply Forall_app; split; auto).
  apply Forall_forall. intros x X. apply under_self. eapply check_required_here; eauto.
Qed.

Lemma elements_under : forall (it : list pstep -> val -> val -> vres ires) at_ attributes path st l n l' ok es,
  (forall q v s o r e, it q v s = VOk (o, r, e) -> Forall (under q) e) ->
  (forall q v n o r e, at_ q v n = VOk (o, r, e) -> Forall (under q) e) ->
  elements it at_ attributes path st n l = VOk (l', ok, es) -> Forall (under path) es /\ length l' = length l.
Proof.
  induction l as [|v r IH]; intros n l' ok es Hit Hat H; cbn [elements] in H.
  - injection H as <- <- <-. auto.
  - match type of H with bind ?X _ = _ => destruct X as [[[o ret] e]| | |] eqn:A end; cbn [bind] in H; try discriminate.
    match type of H with bind ?X _ = _ => destruct X as [[[r' ok'] es']| | |] eqn:B end; cbn [bind] in H; try discriminate.
    injection H as <- <- <-. destruct (IH _ _ _ _ Hit Hat B) as [F L]. split; [|simpl; now rewrite L].
    apply Forall_app. split; auto.
    assert (Forall (under (path ++ [PI n])) e).
    { destruct st as [| | |t| |]; try (eapply Hit; exact A). destruct (dmem t attributes); [|eapply Hit; exact A].
      destruct (at_ (path ++ [PI n]) v t) as [[[o1 r1] e1]| | |] eqn:Q; cbn [bind] in A; try discriminate.
      injection A as <- <- <-. eapply Hat; eauto. }
    eapply Forall_impl; [|eassumption]. intros z. apply under_deeper.
Qed.

Lemma EValue_under : forall path es, Forall (under path) (map (EValue path) es).
Proof. intros path es. apply Forall_forall. intros x X. apply in_map_iff in X. destruct X as [y [<- _]]. now apply under_self. Qed.

(* ---- one item and one object: the possible outcomes ---- *)

Inductive itemR (it : bool -> list pstep -> val -> val -> vres ires) (at_ : list pstep -> val -> string -> vres ires)
  (attributes : dict val) (enabled : list string) (p : bool) (path : list pstep) (v s : val)
  : option val -> val -> list verr -> Prop :=
| IR_any : s = VNull -> itemR it at_ attributes enabled p path v s (Some v) (VBool true) []
| IR_requires : forall dt, s <> VNull -> transform topo s = Some dt -> missing_modules enabled dt <> [] ->
    itemR it at_ attributes enabled p path v s (Some v) (VBool false) (map (ERequires path) (missing_modules enabled dt))
| IR_altname : forall dt v1, s <> VNull -> transform topo s = Some dt -> missing_modules enabled dt = [] ->
    v1 = (if p then list_to_dict dt v else v) ->
    alt_result types dt (name_of dt) v1 = Some None ->
    itemR it at_ attributes enabled p path v s (Some v1) (VBool true) []
| IR_alt : forall dt v1 w, s <> VNull -> transform topo s = Some dt -> missing_modules enabled dt = [] ->
    v1 = (if p then list_to_dict dt v else v) ->
    alt_result types dt (name_of dt) v1 = Some (Some w) ->
    itemR it at_ attributes enabled p path v s (Some (if p && truthy w then w else v1)) (if truthy w then w else VBool true) []
| IR_leaf : forall dt v1 t o ret es, s <> VNull -> transform topo s = Some dt -> missing_modules enabled dt = [] ->
    v1 = (if p then list_to_dict dt v else v) -> alt_result types dt (name_of dt) v1 = None ->
    types (name_of dt) (params dt) = Some t -> type_call p t dt v1 = (o, ret, es) -> truthy ret = false ->
    itemR it at_ attributes enabled p path v s o ret (map (EValue path) es)
| IR_contents : forall dt v1 t o ret es o' ret' e, s <> VNull -> transform topo s = Some dt -> missing_modules enabled dt = [] ->
    v1 = (if p then list_to_dict dt v else v) -> alt_result types dt (name_of dt) v1 = None ->
    types (name_of dt) (params dt) = Some t -> type_call p t dt v1 = (o, ret, es) -> truthy ret = true ->
    contents types it at_ attributes path dt o = VOk (o', ret', e) ->
    itemR it at_ attributes enabled p path v s o' ret' (map (EValue path) es ++ e).

Lemma item_body_inv : forall it at_ attributes enabled p path v s o ret es,
  item_body topo types it at_ attributes enabled p path v s = VOk (o, ret, es) ->
  itemR it at_ attributes enabled p path v s o ret es.
Proof.
  intros it at_ attributes enabled p path v s o ret es H.
  assert (D : s = VNull \/ s <> VNull) by (destruct s; auto; right; discriminate).
  destruct D as [->|N].
  { unfold item_body in H. injection H as <- <- <-. now apply IR_any. }
  assert (E : exists dt, transform topo s = Some dt /\ match missing_modules enabled dt with
          | (_ :: _) as ms => VOk (Some v, VBool false, map (ERequires path) ms)
          | [] =>
              let v1 := if p then list_to_dict dt v else v in
              match alt_result types dt (name_of dt) v1 with
              | Some None => VOk (Some v1, VBool true, [])
              | Some (Some w) =>
                  if truthy w then VOk (Some (if p then w else v1), w, []) else VOk (Some v1, VBool true, [])
              | None =>
                  match types (name_of dt) (params dt) with
                  | None => VFatal
                  | Some t =>
                      let '(o, ret, es) := type_call p t dt v1 in
                      if truthy ret then
                        bind (contents types it at_ attributes path dt o)
                          (fun '(o', ret', e) => VOk (o', ret', map (EValue path) es ++ e))
                      else VOk (o, ret, map (EValue path) es)
                  end
              end
          end = VOk (o, ret, es)).
  { unfold item_body in H. destruct s; try (now elim N); destruct (transform topo _) as [dt|]; try discriminate; exists dt; auto. }
  clear H. destruct E as [dt [T H]].
  destruct (missing_modules enabled dt) as [|m ms] eqn:M.
  2:{ injection H as <- <- <-. change (ERequires path m :: map (ERequires path) ms) with (map (ERequires path) (m :: ms)).
      rewrite <- M. apply IR_requires; auto. now rewrite M. }
  cbv zeta in H. destruct (alt_result types dt (name_of dt) (if p then list_to_dict dt v else v)) as [[w|]|] eqn:A.
  - assert (X : VOk (Some (if p && truthy w then w else if p then list_to_dict dt v else v), (if truthy w then w else VBool true), []) = VOk (o, ret, es)).
    { rewrite <- H. destruct (truthy w), p; reflexivity. }
    injection X as <- <- <-. eapply IR_alt; eauto.
  - injection H as <- <- <-. eapply IR_altname; eauto.
  - destruct (types (name_of dt) (params dt)) as [t|] eqn:Ty; [|discriminate].
    destruct (type_call p t dt (if p then list_to_dict dt v else v)) as [[o1 ret1] es1] eqn:C.
    destruct (truthy ret1) eqn:Tr.
    + destruct (contents types it at_ attributes path dt o1) as [[[o2 ret2] e2]| | |] eqn:Co; cbn [bind] in H; try discriminate.
      injection H as <- <- <-. eapply IR_contents; eauto.
    + injection H as <- <- <-. eapply IR_leaf; eauto.
Qed.

(* the attributes an object is compared with *)
Definition valid_for (attributes : dict val) (l ns : list string) (valid : val) : Prop :=
  get_attribute_namespaces attributes l = Some ns /\ get_valid_attributes attributes ns = Some valid.

Definition is_name (v : val) : bool := match v with VStr _ => true | _ => false end.

Inductive attrsR (it : bool -> list pstep -> val -> val -> vres ires) (sub : string -> list pstep -> val -> list string -> vres ires)
  (attributes : dict val) (enabled : list string) (inside : bool) (path : list pstep) (v : val) (l ignored : list string)
  : option val -> val -> list verr -> Prop :=
| AR_type : forall ns t ts, valid_for attributes l ns (VStr t) -> types t [] = Some ts ->
    attrsR it sub attributes enabled inside path v l ignored (Some v) v (map (EValue path) (snd (alone ts [] v)))
| AR_none : forall ns valid, valid_for attributes l ns valid -> is_name valid = false -> v = VNull ->
    attrsR it sub attributes enabled inside path v l ignored (Some v) (VDict []) []
| AR_notdict : forall ns valid, valid_for attributes l ns valid -> is_name valid = false -> v <> VNull -> is_dict v = false ->
    attrsR it sub attributes enabled inside path v l ignored (Some v) VNull [ENotDict path]
| AR_dict : forall ns valid data d' e, valid_for attributes l ns valid -> is_name valid = false -> v = VDict data ->
    each (attr_step it sub attributes enabled inside path ns ignored (entries valid)) (dkeys data) data = VOk (d', e) ->
    attrsR it sub attributes enabled inside path v l ignored (Some (VDict d')) VNull
      (check_required path data (entries valid) ++ check_valid_with path data (entries valid) ++ e).

Lemma attrs_body_inv : forall it sub attributes enabled inside path v l ignored o ret es,
  attrs_body types mattrs mods it sub attributes enabled inside path v l ignored = VOk (o, ret, es) ->
  attrsR it sub attributes enabled inside path v l ignored o ret es.
Proof.
  intros it sub attributes enabled inside path v l ignored o ret es H. unfold attrs_body in H.
  destruct (get_attribute_namespaces attributes l) as [ns|] eqn:G1; [|discriminate].
  destruct (get_valid_attributes attributes ns) as [valid|] eqn:G2; [|discriminate].
  assert (V : valid_for attributes l ns valid) by (split; auto).
  destruct (is_name valid) eqn:N.
  { destruct valid; try discriminate. destruct (types s []) as [ts|] eqn:T; [|discriminate]. injection H as <- <- <-.
    eapply AR_type; eauto. }
  assert (T : match v with
          | VNull => VOk (Some v, VDict [], [])
          | VDict data =>
              bind (each (attr_step it sub attributes enabled inside path ns ignored (entries valid)) (dkeys data) data)
                (fun '(d', e) =>
                   VOk (Some (VDict d'), VNull,
                        check_required path data (entries valid) ++ check_valid_with path data (entries valid) ++ e))
          | _ => VOk (Some v, VNull, [ENotDict path])
          end = VOk (o, ret, es)) by (destruct valid; try discriminate; exact H).
  clear H. destruct v as [| | | | |data].
  - injection T as <- <- <-. eapply AR_none; eauto.
  - injection T as <- <- <-. eapply AR_notdict; eauto; discriminate.
  - injection T as <- <- <-. eapply AR_notdict; eauto; discriminate.
  - injection T as <- <- <-. eapply AR_notdict; eauto; discriminate.
  - injection T as <- <- <-. eapply AR_notdict; eauto; discriminate.
  - destruct (each (attr_step it sub attributes enabled inside path ns ignored (entries valid)) (dkeys data) data) as [[d' e]| | |] eqn:E; cbn [bind] in T; try discriminate.
    injection T as <- <- <-. eapply AR_dict; eauto.
Qed.

Lemma contents_inv : forall it at_ attributes path dt o o' ret es,
  contents types it at_ attributes path dt o = VOk (o', ret, es) ->
  (name_of dt = "dict" /\ exists d d' ok e, o = Some (VDict d) /\ o' = Some (VDict d') /\ ret = VBool ok /\
     es = check_valid_with path d dt ++ e /\ dictionary types (it true) at_ attributes path d dt = VOk (d', ok, e)) \/
  (name_of dt = "list" /\ dget "_subtype" dt = None /\ o' = o /\ ret = VBool true /\ es = []) \/
  (name_of dt = "list" /\ exists st l l' ok, dget "_subtype" dt = Some st /\ o = Some (VList l) /\ o' = Some (VList l') /\
     ret = VBool ok /\ elements (it false) at_ attributes path st 1 l = VOk (l', ok, es)) \/
  (name_of dt <> "dict" /\ name_of dt <> "list" /\ o' = o /\ ret = VBool true /\ es = []).
Proof.
  intros it at_ attributes path dt o o' ret es H. unfold contents in H.
  destruct (String.eqb_spec (name_of dt) "dict") as [E|E].
  - left. split; [auto|]. destruct o as [[| | | | |d]|]; try discriminate.
    destruct (dictionary types (it true) at_ attributes path d dt) as [[[d' ok] e]| | |] eqn:D; cbn [bind] in H; try discriminate.
    injection H as <- <- <-. exists d, d', ok, e. auto.
  - destruct (String.eqb_spec (name_of dt) "list") as [E2|E2].
    + destruct (dget "_subtype" dt) as [st|].
      * right; right; left. split; [auto|]. destruct o as [[| | | |l|]|]; try discriminate.
        destruct (elements (it false) at_ attributes path st 1 l) as [[[l' ok] e]| | |] eqn:D; cbn [bind] in H; try discriminate.
        injection H as <- <- <-. exists st, l, l', ok. auto.
      * right; left. injection H as <- <- <-. auto.
    + right; right; right. injection H as <- <- <-. auto.
Qed.

(* C95: an error is reported with the path of the validated object or of a part of it *)
Lemma run_under : forall fuel attributes enabled inside c o ret es,
  run fuel attributes enabled inside c = VOk (o, ret, es) -> Forall (under (cpath c)) es.
Proof.
  induction fuel as [|fuel IH]; intros attributes enabled inside c o ret es H; [discriminate|].
  destruct c as [p path v s|path v l ignored]; cbn [cpath]; cbn [Valid_Model.run] in H.
  - apply item_body_inv in H. inversion H; subst; clear H; try (constructor; fail).
    + apply Forall_forall. intros x X. apply in_map_iff in X. destruct X as [y [<- _]]. now apply under_self.
    + apply EValue_under.
    + apply Forall_app. split; [apply EValue_under|].
      match goal with C : contents _ _ _ _ _ _ _ = _ |- _ => apply contents_inv in C; rename C into K end.
      destruct K as [[_ [d [d' [ok [f [-> [-> [-> [-> D]]]]]]]]]|[[_ [_ [_ [_ ->]]]]|[[_ [st [x [x' [ok [_ [_ [_ [_ D]]]]]]]]]|[_ [_ [_ [_ ->]]]]]]];
        try (constructor; fail).
      * apply Forall_app. split.
        -- apply Forall_forall. intros x X. destruct (valid_with_here _ _ _ _ _ _ X) as [a [y ->]]. now apply under_self.
        -- eapply dictionary_under; [| |exact D]; intros q v8 s8 o8 r8 f8 X; exact (IH _ _ _ _ _ _ _ X).
      * eapply elements_under; [| |exact D]; intros q v8 s8 o8 r8 f8 X; exact (IH _ _ _ _ _ _ _ X).
  - apply attrs_body_inv in H. inversion H; subst; clear H.
    + apply EValue_under.
    + constructor.
    + constructor; [now apply under_self|constructor].
    + match goal with C : each _ _ _ = _ |- _ => rename C into E end.
      apply Forall_app. split; [|apply Forall_app; split].
      * apply Forall_forall. intros x X. apply under_self. eapply check_required_here; eauto.
      * apply Forall_forall. intros x X. destruct (valid_with_here _ _ _ _ _ _ X) as [a [l0 ->]]. now apply under_self.
      * eapply each_spec with (proj := fun d => d) (R := fun _ _ _ e => Forall (under path) e) in E.
        -- destruct E as [_ [_ C]]. apply Forall_forall. intros x X. destruct (C x X) as [k [v1 [w [e1 [_ [F Y]]]]]].
           rewrite Forall_forall in F. auto.
        -- intros k s0 s1 e1 v1 D G. destruct (attr_step_inv _ _ _ _ _ _ _ _ _ _ _ _ _ _ D G) as [w [Q1 Q2]].
           exists w. split; auto. inversion Q2; subst; try (constructor; fail);
             try (constructor; [now apply under_self|constructor]).
           ++ match goal with C : run _ _ _ _ _ = _ |- _ => apply IH in C; eapply Forall_impl; [|exact C] end. intros z. apply under_deeper.
           ++ match goal with C : run _ _ _ _ _ = _ |- _ => apply IH in C; eapply Forall_impl; [|exact C] end. intros z. apply under_deeper.
        -- apply incl_refl.
Qed.

Theorem validation_error_paths : forall fuel attributes enabled inside c o ret es,
  run fuel attributes enabled inside c = VOk (o, ret, es) -> forall e, In e es -> under (cpath c) e.
Proof.
  intros fuel attributes enabled inside c o ret es H e I. apply run_under in H. rewrite Forall_forall in H. auto.
Qed.

(* ---- the attributes of one object ---- *)

Definition ignored_key (ignored : list string) (k : string) : Prop := exists i, In i ignored /\ prefix i k = true.

Lemma ignored_key_iff : forall ignored k, existsb (fun i => starts_with i k) ignored = true <-> ignored_key ignored k.
Proof. intros ignored k. rewrite existsb_exists. unfold ignored_key, starts_with. split; intros [i H]; exists i; auto. Qed.

Lemma ignored_key_false : forall ignored k, existsb (fun i => starts_with i k) ignored = false <-> ~ ignored_key ignored k.
Proof. intros ignored k. rewrite <- ignored_key_iff. destruct (existsb _ ignored); split; intros H; congruence. Qed.

Lemma run_attrs_dict : forall fuel attributes enabled inside path data l ignored o ret es ns valid,
  run (S fuel) attributes enabled inside (CAttrs path (VDict data) l ignored) = VOk (o, ret, es) ->
  valid_for attributes l ns valid -> is_name valid = false ->
  exists d' e, o = Some (VDict d') /\ ret = VNull /\
    es = check_required path data (entries valid) ++ check_valid_with path data (entries valid) ++ e /\
    each (attr_step (fun p path v s => run fuel attributes enabled inside (CItem p path v s))
            (fun k path v ns => run fuel (mattrs k) enabled true (CAttrs path v ns ["_"]))
            attributes enabled inside path ns ignored (entries valid)) (dkeys data) data = VOk (d', e).
Proof.
  intros fuel attributes enabled inside path data l ignored o ret es ns valid H [V1 V2] N.
  cbn [Valid_Model.run] in H. apply attrs_body_inv in H. inversion H; subst; clear H;
    match goal with V : valid_for _ _ _ _ |- _ => destruct V as [W1 W2] end;
    (assert (ns0 = ns) as -> by congruence); rewrite V2 in W2; injection W2 as W2; try (subst valid; discriminate); try discriminate.
  subst valid0. match goal with E : VDict _ = VDict _ |- _ => injection E as <- end.
  exists d', e. auto.
Qed.

Lemma each_steps : forall it sub attributes enabled inside path ns ignored valid data d' e,
  each (attr_step it sub attributes enabled inside path ns ignored valid) (dkeys data) data = VOk (d', e) ->
  dkeys d' = dkeys data /\
  (forall k, In k (dkeys data) -> exists v w f, dget k d' = Some w /\
     stepR it sub attributes enabled inside path ns ignored valid k v w f /\ incl f e) /\
  (forall x, In x e -> exists k v w f, In k (dkeys data) /\ stepR it sub attributes enabled inside path ns ignored valid k v w f /\ In x f).
Proof.
  intros it sub attributes enabled inside path ns ignored valid data d' e E.
  assert (ST : forall k s s' f v, dget k s = Some v ->
    attr_step it sub attributes enabled inside path ns ignored valid k s = VOk (s', f) ->
    exists w, s' = dset k w s /\ stepR it sub attributes enabled inside path ns ignored valid k v w f).
  { intros k s s' f v D G. eapply attr_step_inv; eauto. }
  assert (I : incl (dkeys data) (dkeys data)) by apply incl_refl.
  pose proof (each_keys _ (fun d => d) _ _ ST _ _ _ _ I E) as K.
  destruct (each_spec _ (fun d => d) _ _ ST _ _ _ _ I E) as [_ [A B]].
  auto.
Qed.

Lemma EValue_not_required : forall path data valid k, In (EMissing path k) (check_required path data valid) <->
  exists s, In (k, s) valid /\ required s = true /\ ~ In k (dkeys data).
Proof.
  intros path data valid k. unfold check_required. rewrite in_flat_map. split.
  - intros [[k0 s] [I H]]. cbn [fst snd] in H. destruct (required s && negb (dmem k0 data)) eqn:E; [|contradiction].
    destruct H as [H|[]]. injection H as <-. apply andb_true_iff in E. destruct E as [E1 E2]. exists s.
    split; [auto|split; [auto|]]. intros X. apply dmem_true in X. rewrite X in E2. discriminate.
  - intros [s [I [R N]]]. exists (k, s). split; [auto|]. cbn [fst snd]. rewrite R.
    destruct (dmem k data) eqn:E; [apply dmem_true in E; contradiction|]. now left.
Qed.

(* C95: which attributes of an object are reported, and that is all that is reported about the object itself *)
Theorem object_attributes_reported : forall fuel attributes enabled inside path data l ignored o ret es ns valid,
  run fuel attributes enabled inside (CAttrs path (VDict data) l ignored) = VOk (o, ret, es) ->
  valid_for attributes l ns valid -> is_name valid = false ->
  (forall k, In (EInvalid path k) es <->
     In k (dkeys data) /\ ~ ignored_key ignored k /\ ~ In k (dkeys (entries valid)) /\
     (inside = true \/ (~ In k enabled /\ ~ In k mods))) /\
  (forall k, In (EModule path k) es <->
     In k (dkeys data) /\ ~ ignored_key ignored k /\ ~ In k (dkeys (entries valid)) /\
     inside = false /\ ~ In k enabled /\ In k mods) /\
  (forall k, In (EMissing path k) es <->
     exists s, In (k, s) (entries valid) /\ required s = true /\ ~ In k (dkeys data)).
Proof.
  intros fuel attributes enabled inside path data l ignored o ret es ns valid H V N.
  destruct fuel as [|fuel]; [discriminate|].
  destruct (run_attrs_dict _ _ _ _ _ _ _ _ _ _ _ _ _ H V N) as [d' [e [_ [_ [-> E]]]]]. clear H.
  destruct (each_steps _ _ _ _ _ _ _ _ _ _ _ _ E) as [_ [A B]].
  assert (NR : forall x, In x (check_required path data (entries valid)) -> exists k, x = EMissing path k).
  { intros x X. unfold check_required in X. apply in_flat_map in X. destruct X as [[k s] [_ X]].
    destruct (required (snd (k, s)) && negb (dmem (fst (k, s)) data)); [|contradiction]. destruct X as [<-|[]]. eauto. }
  assert (NC : forall x, In x (check_valid_with path data (entries valid)) -> exists a y, x = EConflict path a y).
  { intros x X. eapply valid_with_here; eauto. }
  assert (DEEP : forall c o r f s x, run fuel attributes enabled inside c = VOk (o, r, f) -> cpath c = path ++ [s] -> In x f -> epath x <> path).
  { intros c o1 r f s x R Q X. apply run_under in R. rewrite Forall_forall in R. rewrite Q in R. eapply under_not_here. eapply R; eauto. }
  assert (DEEP2 : forall m c o r f s x, run fuel (mattrs m) enabled true c = VOk (o, r, f) -> cpath c = path ++ [s] -> In x f -> epath x <> path).
  { intros m c o1 r f s x R Q X. apply run_under in R. rewrite Forall_forall in R. rewrite Q in R. eapply under_not_here. eapply R; eauto. }
  split; [|split]; intros k.
  - split.
    + intros X. apply in_app_or in X. destruct X as [X|X]; [destruct (NR _ X) as [? ?]; discriminate|].
      apply in_app_or in X. destruct X as [X|X]; [destruct (NC _ X) as [? [? ?]]; discriminate|].
      destruct (B _ X) as [k0 [v [w [f [I [SR Y]]]]]]. inversion SR; subst; try contradiction.
      * exfalso. eapply DEEP; eauto; reflexivity.
      * exfalso. eapply DEEP2; eauto; reflexivity.
      * destruct Y as [Y|[]]. discriminate.
      * destruct Y as [Y|[]]. injection Y as <-. split; [auto|split; [now apply ignored_key_false|split; [now apply dget_None|auto]]].
    + intros [I [G [D C]]]. apply in_or_app. right. apply in_or_app. right.
      destruct (A k I) as [v [w [f [_ [SR Y]]]]]. apply Y. apply dget_None in D. apply ignored_key_false in G.
      inversion SR; subst; try congruence.
      * destruct C as [C|[C _]]; [congruence|contradiction].
      * destruct C as [C|[C _]]; [congruence|contradiction].
      * destruct C as [C|[_ C]]; [congruence|contradiction].
      * now left.
  - split.
    + intros X. apply in_app_or in X. destruct X as [X|X]; [destruct (NR _ X) as [? ?]; discriminate|].
      apply in_app_or in X. destruct X as [X|X]; [destruct (NC _ X) as [? [? ?]]; discriminate|].
      destruct (B _ X) as [k0 [v [w [f [I [SR Y]]]]]]. inversion SR; subst; try contradiction.
      * exfalso. eapply DEEP; eauto; reflexivity.
      * exfalso. eapply DEEP2; eauto; reflexivity.
      * destruct Y as [Y|[]]. injection Y as <-. split; [auto|split; [now apply ignored_key_false|split; [now apply dget_None|auto]]].
      * destruct Y as [Y|[]]. discriminate.
    + intros [I [G [D [Q [C1 C2]]]]]. apply in_or_app. right. apply in_or_app. right.
      destruct (A k I) as [v [w [f [_ [SR Y]]]]]. apply Y. apply dget_None in D. apply ignored_key_false in G.
      inversion SR; subst; try congruence; try contradiction.
      * now left.
      * match goal with C : false = true \/ _ |- _ => destruct C as [C|[_ C]]; [discriminate|contradiction] end.
  - rewrite <- (EValue_not_required path). split.
    + intros X. apply in_app_or in X. destruct X as [X|X]; [auto|].
      apply in_app_or in X. destruct X as [X|X]; [destruct (NC _ X) as [? [? ?]]; discriminate|].
      destruct (B _ X) as [k0 [v [w [f [I [SR Y]]]]]]. inversion SR; subst; try contradiction.
      * exfalso. eapply DEEP; eauto; reflexivity.
      * exfalso. eapply DEEP2; eauto; reflexivity.
      * destruct Y as [Y|[]]. discriminate.
      * destruct Y as [Y|[]]. discriminate.
    + intros X. apply in_or_app. now left.
Qed.

(* C95: validating an object keeps its attributes; ignored attributes and attributes that are not accepted are not changed *)
Theorem object_attributes_kept : forall fuel attributes enabled inside path data l ignored o ret es ns valid,
  run fuel attributes enabled inside (CAttrs path (VDict data) l ignored) = VOk (o, ret, es) ->
  valid_for attributes l ns valid -> is_name valid = false -> NoDup (dkeys data) ->
  exists d', o = Some (VDict d') /\ dkeys d' = dkeys data /\
    forall k, (ignored_key ignored k \/ In (EInvalid path k) es \/ In (EModule path k) es) -> dget k d' = dget k data.
Proof.
  intros fuel attributes enabled inside path data l ignored o ret es ns valid H V N U.
  destruct (object_attributes_reported _ _ _ _ _ _ _ _ _ _ _ _ _ H V N) as [R1 [R2 _]].
  destruct fuel as [|fuel]; [discriminate|].
  destruct (run_attrs_dict _ _ _ _ _ _ _ _ _ _ _ _ _ H V N) as [d' [e [-> [_ [_ E]]]]]. clear H.
  exists d'. split; [auto|].
  destruct (each_steps _ _ _ _ _ _ _ _ _ _ _ _ E) as [K _]. split; [auto|].
  intros k C. destruct (dget k data) as [v|] eqn:D.
  2:{ apply dget_None. rewrite K. now apply dget_None. }
  assert (ST : forall k s s' f v, dget k s = Some v ->
    attr_step (fun p path v s => run fuel attributes enabled inside (CItem p path v s))
            (fun k path v ns => run fuel (mattrs k) enabled true (CAttrs path v ns ["_"])) attributes enabled inside path ns ignored (entries valid) k s = VOk (s', f) ->
    exists w, s' = dset k w s /\ stepR (fun p path v s => run fuel attributes enabled inside (CItem p path v s))
            (fun k path v ns => run fuel (mattrs k) enabled true (CAttrs path v ns ["_"])) attributes enabled inside path ns ignored (entries valid) k v w f).
  { intros k1 s s' f v1 D1 G. eapply attr_step_inv; eauto. }
  assert (I : incl (dkeys data) (dkeys data)) by apply incl_refl.
  destruct (each_values _ (fun d => d) _ _ ST _ _ _ _ U I E k v) as [w [f [Dw [SR _]]]];
    [eapply dget_Some_key; eauto|auto|].
  rewrite Dw. f_equal.
  destruct C as [C|[C|C]].
  - apply ignored_key_iff in C. inversion SR; subst; auto; congruence.
  - apply R1 in C. destruct C as [_ [C1 [C2 C3]]]. apply ignored_key_false in C1. apply dget_None in C2.
    inversion SR; subst; auto; try congruence. destruct C3 as [C3|[C3 _]]; [congruence|contradiction].
  - apply R2 in C. destruct C as [_ [C1 [C2 [C3 [C4 C5]]]]]. apply ignored_key_false in C1. apply dget_None in C2.
    inversion SR; subst; auto; try congruence.
Qed.

(* ---- conflicting attributes ---- *)

(* [x] may not be used together with [a] *)
Definition excludes (keys : dict val) (a x : string) : Prop :=
  exists ok, with_list keys a = Some ok /\ x <> a /\ ~ In x ok /\ prefix "_" x = false.

Lemma inv_iff : forall keys a ok all x, with_list keys a = Some ok ->
  (In x (filter (fun x => negb (String.eqb x a) && negb (memS x ok) && negb (is_internal x)) all) <-> In x all /\ excludes keys a x).
Proof.
  intros keys a ok all x W. rewrite filter_In. rewrite !andb_true_iff, !negb_true_iff. unfold is_internal, starts_with, excludes.
  rewrite memS_false, String.eqb_neq. split.
  - intros [I [[E M] P]]. split; [auto|]. exists ok. auto.
  - intros [I [ok' [W' [E [M P]]]]]. assert (ok' = ok) as -> by congruence. auto.
Qed.

Lemma valid_with_sound : forall path keys all attrs rep a l, incl attrs all ->
  In (EConflict path a l) (valid_with_loop path keys all attrs rep) ->
  In a attrs /\ l <> [] /\ (forall x, In x l <-> In x all /\ excludes keys a x).
Proof.
  induction attrs as [|b r IH]; intros rep a l I H; cbn [valid_with_loop] in H; [contradiction|].
  assert (Ir : incl r all) by (intros x X; apply I; now right).
  destruct (with_list keys b) as [ok|] eqn:W.
  2:{ destruct (IH _ _ _ Ir H) as [A B]. split; [now right|auto]. }
  destruct (memS b rep).
  { destruct (IH _ _ _ Ir H) as [A B]. split; [now right|auto]. }
  cbv zeta in H. pose proof (inv_iff keys b ok all) as IV.
  destruct (filter (fun x => negb (String.eqb x b) && negb (memS x ok) && negb (is_internal x)) all) as [|y ys].
  { destruct (IH _ _ _ Ir H) as [A B]. split; [now right|auto]. }
  destruct H as [H|H].
  - injection H as <- <-. split; [now left|split; [discriminate|]]. intros x. now apply IV.
  - destruct (IH _ _ _ Ir H) as [A B]. split; [now right|auto].
Qed.

Lemma valid_with_nil : forall path keys all attrs, incl attrs all ->
  valid_with_loop path keys all attrs [] = [] <-> (forall a x, In a attrs -> In x all -> ~ excludes keys a x).
Proof.
  induction attrs as [|b r IH]; intros I; cbn [valid_with_loop]; [split; [intros _ a x []|auto]|].
  assert (Ir : incl r all) by (intros x X; apply I; now right). specialize (IH Ir).
  destruct (with_list keys b) as [ok|] eqn:W.
  - cbn [memS existsb]. cbv zeta. pose proof (fun x => inv_iff keys b ok all x W) as IV.
    destruct (filter (fun x => negb (String.eqb x b) && negb (memS x ok) && negb (is_internal x)) all) as [|y ys].
    + rewrite IH. split.
      * intros H a x [<-|A] X E; [|eapply H; eauto]. apply (IV x). auto.
      * intros H a x A X. apply H; [now right|auto].
    + split; [discriminate|]. intros H. exfalso. destruct (proj1 (IV y) (or_introl eq_refl)) as [Y E]. eapply H; eauto. now left.
  - rewrite IH. split.
    + intros H a x [<-|A] X E; [|eapply H; eauto]. destruct E as [ok [E _]]. congruence.
    + intros H a x A X. apply H; [now right|auto].
Qed.

(* C96: a conflict is reported exactly when two attributes exclude each other; the report lists all attributes that
   cannot be used with the reported one *)
Theorem conflicts_reported : forall fuel attributes enabled inside path data l ignored o ret es ns valid,
  run fuel attributes enabled inside (CAttrs path (VDict data) l ignored) = VOk (o, ret, es) ->
  valid_for attributes l ns valid -> is_name valid = false ->
  ((exists a x, In (EConflict path a x) es) <->
   exists a x, In a (dkeys data) /\ In x (dkeys data) /\ excludes (keys_of (entries valid)) a x) /\
  (forall a x, In (EConflict path a x) es ->
     In a (dkeys data) /\ x <> [] /\ forall y, In y x <-> In y (dkeys data) /\ excludes (keys_of (entries valid)) a y).
Proof.
  intros fuel attributes enabled inside path data l ignored o ret es ns valid H V N.
  destruct fuel as [|fuel]; [discriminate|].
  destruct (run_attrs_dict _ _ _ _ _ _ _ _ _ _ _ _ _ H V N) as [d' [e [_ [_ [-> E]]]]]. clear H.
  destruct (each_steps _ _ _ _ _ _ _ _ _ _ _ _ E) as [_ [_ B]].
  assert (C : forall a x, In (EConflict path a x) (check_required path data (entries valid) ++ check_valid_with path data (entries valid) ++ e)
     <-> In (EConflict path a x) (check_valid_with path data (entries valid))).
  { intros a x. split; [|intros X; apply in_or_app; right; apply in_or_app; now left].
    intros X. apply in_app_or in X. destruct X as [X|X].
    { unfold check_required in X. apply in_flat_map in X. destruct X as [[k s] [_ X]].
      destruct (required (snd (k, s)) && negb (dmem (fst (k, s)) data)); [|contradiction]. destruct X as [X|[]]. discriminate. }
    apply in_app_or in X. destruct X as [X|X]; [auto|]. exfalso.
    destruct (B _ X) as [k0 [v [w [f [I [SR Y]]]]]]. inversion SR; subst; try contradiction.
    - match goal with R : run _ _ _ _ _ = _ |- _ => apply run_under in R; rewrite Forall_forall in R; specialize (R _ Y) end.
      match goal with R : under _ _ |- _ => apply under_not_here in R end. now cbn in *.
    - match goal with R : run _ _ _ _ _ = _ |- _ => apply run_under in R; rewrite Forall_forall in R; specialize (R _ Y) end.
      match goal with R : under _ _ |- _ => apply under_not_here in R end. now cbn in *.
    - destruct Y as [Y|[]]. discriminate.
    - destruct Y as [Y|[]]. discriminate. }
  split.
  - split.
    + intros [a [x X]]. apply C in X. apply valid_with_sound in X; [|apply incl_refl]. destruct X as [A [Nx Q]].
      destruct x as [|y ys]; [congruence|]. exists a, y. destruct (proj1 (Q y) (or_introl eq_refl)). auto.
    + intros [a [x [A [X Q]]]]. destruct (check_valid_with path data (entries valid)) as [|e0 es0] eqn:K.
      * exfalso. unfold check_valid_with in K. rewrite valid_with_nil in K by apply incl_refl. exact (K a x A X Q).
      * destruct (valid_with_here path (keys_of (entries valid)) (dkeys data) (dkeys data) [] e0) as [a0 [l0 ->]].
        { unfold check_valid_with in K. rewrite K. now left. }
        exists a0, l0. apply C. now left.
  - intros a x X. apply C in X. apply valid_with_sound in X; [auto|apply incl_refl].
Qed.

(* ---- the type wrapper is the one of Types_Model ---- *)

Lemma in_parent_type_test : forall t create tv values k d v o ret es, dget k d = Some v ->
  in_parent t create tv values v = (o, ret, es) ->
  type_test (ts_test t) (mk_topts (ts_empty t) (ts_false t) (Some create) tv values) k d =
  (match o with Some w => dset k w d | None => dpop k d end, es).
Proof.
  intros t create tv values k d v o ret es D H.
  assert (S1 : forall x, dmem k (dset k x d) = true) by (intros x; unfold dmem; now rewrite dget_dset_same).
  assert (S2 : dmem k d = true) by (unfold dmem; now rewrite D).
  assert (S3 : forall x y, dset k x (dset k y d) = dset k x d).
  { intros x y. clear. induction d as [|[k0 v0] r IH]; cbn [dset].
    - now rewrite String.eqb_refl.
    - destruct (String.eqb k k0) eqn:E; cbn [dset]; rewrite E; [reflexivity|now rewrite IH]. }
  assert (S4 : dpop k d = dpop k d) by reflexivity.
  assert (T : forall x d1, dmem k d1 = true -> (forall y, dset k y d1 = dset k y d) ->
    (if negb (dmem k d1) then (d1, [])
     else match ts_test t x with
          | Valid v => let parent := dset k v d1 in
              match values with [] => (parent, []) | v0 :: l0 => if check_valid_values (v0 :: l0) v then (parent, []) else (parent, [InvalidValue]) end
          | BadType => (d1, [WrongType])
          | BadValue => (d1, [WrongValue])
          end) =
    (match ts_test t x with Valid w => dset k w d | _ => d1 end,
     match ts_test t x with
     | Valid w => match values with [] => [] | _ => if check_valid_values values w then [] else [InvalidValue] end
     | BadType => [WrongType] | BadValue => [WrongValue] end)).
  { intros x d1 M Q. rewrite M. cbn [negb]. destruct (ts_test t x) as [w| |]; try reflexivity. cbv zeta. rewrite Q.
    destruct values; [reflexivity|]. destruct (check_valid_values (v0 :: values) w); reflexivity. }
  unfold in_parent in H. unfold type_test, get_value_to_check, get_value. cbn [t_empty t_false t_create t_true t_values].
  rewrite D. unfold replaced in H.
  assert (G : forall x d1, dmem k d1 = true -> (forall y, dset k y d1 = dset k y d) -> dset k x d = d1 ->
    (match ts_test t x with
      | Valid w => (Some w, w, match values with [] => [] | _ => if check_valid_values values w then [] else [InvalidValue] end)
      | BadType => (Some x, VNull, [WrongType])
      | BadValue => (Some x, VNull, [WrongValue])
      end) = (o, ret, es) ->
    (if negb (dmem k d1) then (d1, [])
     else match ts_test t x with
          | Valid v => let parent := dset k v d1 in
              match values with [] => (parent, []) | v0 :: l0 => if check_valid_values (v0 :: l0) v then (parent, []) else (parent, [InvalidValue]) end
          | BadType => (d1, [WrongType])
          | BadValue => (d1, [WrongValue])
          end) = (match o with Some w => dset k w d | None => dpop k d end, es)).
  { intros x d1 M Q Qx H1. rewrite T by auto. destruct (ts_test t x); injection H1 as <- <- <-; now rewrite ?Qx. }
  assert (Id : dset k v d = d) by now apply dset_id.
  destruct v as [|b|z|st|l|dd]; try (destruct tv; apply G; auto; fail).
  - destruct (ts_empty t) as [e|].
    + destruct create.
      * destruct e as [|[]| | | |]; destruct tv as [x|]; cbv beta iota;
          try (apply G; [unfold dmem; now rewrite dget_dset_same|intros y; now rewrite ?S3|now rewrite ?S3|exact H]; fail).
        destruct (ts_false t) as [f|].
        -- apply G; [unfold dmem; now rewrite dget_dset_same|intros y; now rewrite !S3|now rewrite S3|exact H].
        -- injection H as <- <- <-.
           assert (P1 : dpop k (dset k (VBool false) d) = dpop k d).
           { clear. induction d as [|[k0 v0] r IH]; cbn [dset dpop].
             - now rewrite String.eqb_refl.
             - destruct (String.eqb k k0) eqn:E; cbn [dpop]; rewrite E; [reflexivity|now rewrite IH]. }
           rewrite P1. unfold dmem. rewrite dget_dpop_same. reflexivity.
      * destruct tv; apply G; auto.
    + destruct tv; apply G; auto.
  - destruct b; destruct tv as [x|]; try (apply G; auto; fail).
    destruct (ts_false t) as [f|]; [apply G; auto|]. injection H as <- <- <-. unfold dmem. rewrite dget_dpop_same. reflexivity.
Qed.

(* ---- nested dictionaries ---- *)

(* dictionaries are accepted as they are by the dictionary type *)
Hypothesis dict_type : forall a t d, types "dict" a = Some t -> ts_test t (VDict d) = Valid (VDict d).

(* an attribute definition that is a dictionary with given keys, and nothing else *)
Definition plain_dict (enabled : list string) (s : val) (dt ks : dict val) : Prop :=
  transform topo s = Some dt /\ name_of dt = "dict" /\ missing_modules enabled dt = [] /\ dget "_alt_types" dt = None /\
  dget "_keytype" dt = None /\ dget "_subtype" dt = None /\ dget "_keys" dt = Some (VDict ks).

Lemma keys_step_spec : forall (it : list pstep -> val -> val -> vres ires) path ks data ok data' ok' es,
  each (fun k '(d, ok) =>
          match dget k ks with
          | None => VOk ((d, false), [EAttr path k])
          | Some s => bind (at_key (fun v => it (path ++ [PK k]) v s) k d) (fun '(d1, _, e) => VOk ((d1, ok), e))
          end) (dkeys data) (data, ok) = VOk ((data', ok'), es) ->
  (forall x, In x es -> exists k, In k (dkeys data) /\
     ((dget k ks = None /\ x = EAttr path k) \/
      exists s v o r e, dget k ks = Some s /\ it (path ++ [PK k]) v s = VOk (o, r, e) /\ In x e)) /\
  (forall k, In k (dkeys data) -> dget k ks = None -> In (EAttr path k) es) /\
  dkeys data' = dkeys data /\
  (ok' = true -> ok = true /\ forall k, In k (dkeys data) -> dget k ks <> None) /\
  ((forall k, In k (dkeys data) -> dget k ks <> None) -> ok' = ok) /\
  (NoDup (dkeys data) -> forall k v s, dget k data = Some v -> dget k ks = Some s ->
     exists w r e, it (path ++ [PK k]) v s = VOk (Some w, r, e) /\ dget k data' = Some w /\ incl e es).
Proof.
  intros it path ks data ok data' ok' es E.
  match type of E with each ?g _ _ = _ => set (gg := g) in E end.
  set (R := fun k v w e => (dget k ks = None /\ w = v /\ e = [EAttr path k]) \/
     (exists s r, dget k ks = Some s /\ it (path ++ [PK k]) v s = VOk (Some w, r, e))).
  assert (ST : forall k s s' e v, dget k (fst s) = Some v -> gg k s = VOk (s', e) ->
     exists w, fst s' = dset k w (fst s) /\ R k v w e).
  { intros k [x0 ok3] [x1 ok4] e v D G. unfold gg in G. cbn [fst] in *. unfold R.
    destruct (dget k ks) as [s|].
    - match type of G with bind ?X _ = _ => destruct X as [[[y r] f]| | |] eqn:A end; cbn [bind] in G; try discriminate.
      injection G as <- <- <-. apply at_key_inv in A. rewrite D in A. destruct A as [w [Q ->]]. exists w. split; [auto|].
      right. exists s, r. auto.
    - injection G as <- <- <-. exists v. split; [symmetry; now apply dset_id|]. left. auto. }
  assert (I : incl (dkeys data) (dkeys (fst (data, ok)))) by apply incl_refl.
  destruct (each_spec _ fst gg R ST _ _ _ _ I E) as [_ [A B]].
  split; [|split; [|split; [|split; [|split]]]].
  - intros x X. destruct (B x X) as [k [v [w [e [Ik [[[Q1 [Q2 Q3]]|[s [r [Q1 Q2]]]] Y]]]]]].
    + subst e. destruct Y as [<-|[]]. exists k. auto.
    + exists k. split; [auto|]. right. exists s, v, (Some w), r, e. auto.
  - intros k Ik N. destruct (A k Ik) as [v [w [e [_ [[[_ [_ Q3]]|[s [r [Q1 Q2]]]] Y]]]]].
    + apply Y. subst e. now left.
    + congruence.
  - exact (each_keys _ fst gg R ST _ _ _ _ I E).
  - assert (G : forall l d0 o0 d1 o1 es0, each gg l (d0, o0) = VOk ((d1, o1), es0) -> o1 = true ->
      o0 = true /\ forall k, In k l -> dget k ks <> None).
    { clear. induction l as [|k r IH]; intros d0 o0 d1 o1 es0 H T; cbn [each] in H.
      - injection H as <- <- <-. split; [auto|intros k []].
      - destruct (gg k (d0, o0)) as [[[d2 o2] e2]| | |] eqn:G; cbn [bind] in H; try discriminate.
        destruct (each gg r (d2, o2)) as [[[d3 o3] e3]| | |] eqn:F; cbn [bind] in H; try discriminate.
        injection H as <- <- <-. destruct (IH _ _ _ _ _ F T) as [-> Q]. unfold gg in G.
        destruct (dget k ks) as [s|] eqn:D; [|discriminate].
        match type of G with bind ?X _ = _ => destruct X as [[[y z] f]| | |] end; cbn [bind] in G; try discriminate.
        injection G as <- <- <-. split; [auto|]. intros x [<-|X]; [congruence|auto]. }
    intros T. exact (G _ _ _ _ _ _ E T).
  - assert (G : forall l d0 o0 d1 o1 es0, each gg l (d0, o0) = VOk ((d1, o1), es0) ->
      (forall k, In k l -> dget k ks <> None) -> o1 = o0).
    { clear. induction l as [|k r IH]; intros d0 o0 d1 o1 es0 H T; cbn [each] in H.
      - now injection H as <- <- <-.
      - destruct (gg k (d0, o0)) as [[[d2 o2] e2]| | |] eqn:G; cbn [bind] in H; try discriminate.
        destruct (each gg r (d2, o2)) as [[[d3 o3] e3]| | |] eqn:F; cbn [bind] in H; try discriminate.
        injection H as <- <- <-. rewrite (IH _ _ _ _ _ F) by (intros x X; apply T; now right).
        unfold gg in G. specialize (T k (or_introl eq_refl)).
        destruct (dget k ks) as [s|]; [|congruence].
        match type of G with bind ?X _ = _ => destruct X as [[[y z] f]| | |] end; cbn [bind] in G; try discriminate.
        now injection G as <- <- <-. }
    intros T. exact (G _ _ _ _ _ _ E T).
  - intros U k v s D Ds.
    destruct (each_values _ fst gg R ST _ _ _ _ U I E k v) as [w [e [Q1 [Q2 Q3]]]]; [eapply dget_Some_key; eauto|auto|].
    destruct Q2 as [[Q2 _]|[s0 [r [Q2 Q4]]]]; [congruence|]. assert (s0 = s) as -> by congruence. exists w, r, e. auto.
Qed.

(* validating a non-empty dictionary against such a definition *)
Lemma plain_dict_run : forall fuel attributes enabled inside p path d s o ret es dt ks,
  run (S fuel) attributes enabled inside (CItem p path (VDict d) s) = VOk (o, ret, es) ->
  plain_dict enabled s dt ks -> d <> [] ->
  exists d' ok es1 e2 e3, o = Some (VDict d') /\
    es = map (EValue path) es1 ++ check_valid_with path d dt ++ e2 ++ e3 /\
    each (fun k '(d, ok) =>
          match dget k ks with
          | None => VOk ((d, false), [EAttr path k])
          | Some s => bind (at_key (fun v => run fuel attributes enabled inside (CItem true (path ++ [PK k]) v s)) k d) (fun '(d1, _, e) => VOk ((d1, ok), e))
          end) (dkeys d) (d, true) = VOk ((d', ok), e2) /\
    e3 = if ok then check_required path d' ks else [].
Proof.
  intros fuel attributes enabled inside p path d s o ret es dt ks H [T [Nm [M [Al [Kt [St Ks]]]]]] Nd.
  cbn [Valid_Model.run] in H. apply item_body_inv in H.
  assert (L : (if p then list_to_dict dt (VDict d) else VDict d) = VDict d) by (destruct p; reflexivity).
  assert (Sn : s <> VNull) by (intros ->; discriminate).
  inversion H; subst; clear H; try contradiction;
    match goal with X : transform topo s = Some _ |- _ => rewrite T in X; injection X as <- end.
  - rewrite M in *. congruence.
  - match goal with X : alt_result _ _ _ _ = _ |- _ => unfold alt_result in X; rewrite Al in X; discriminate end.
  - match goal with X : alt_result _ _ _ _ = _ |- _ => unfold alt_result in X; rewrite Al in X; discriminate end.
  - exfalso. match goal with X : types _ _ = Some _, Y : type_call _ _ _ _ = _ |- _ =>
      rewrite Nm in X; rewrite L in Y; pose proof (dict_type _ _ d X) as Q; unfold type_call, in_parent, alone, replaced in Y end.
    destruct p.
    + match goal with Y : _ = (o, ret, es0) |- _ => cbv iota beta zeta in Y; rewrite Q in Y; injection Y as <- <- <- end.
      destruct d; [congruence|discriminate].
    + match goal with Y : _ = (o, ret, es0) |- _ => rewrite Q in Y; cbn [fst snd] in Y; injection Y as <- <- <- end.
      destruct d; [congruence|discriminate].
  - match goal with X : contents _ _ _ _ _ _ _ = _ |- _ => apply contents_inv in X; rename X into C end.
    destruct C as [[_ [d0 [d' [ok [e0 [E1 [E2 [E3 [E4 D]]]]]]]]]|[[C _]|[[C _]|[C _]]]]; try congruence.
    subst o0 o ret e.
    assert (d0 = d).
    { match goal with X : types _ _ = Some _, Y : type_call _ _ _ _ = _ |- _ =>
        rewrite Nm in X; rewrite L in Y; pose proof (dict_type _ _ d X) as Q; unfold type_call, in_parent, alone, replaced in Y end.
      destruct p.
      - match goal with Y : _ = (Some (VDict d0), ret0, es0) |- _ => cbv iota beta zeta in Y; rewrite Q in Y; injection Y as Y _ _ end. auto.
      - match goal with Y : _ = (Some (VDict d0), ret0, es0) |- _ => injection Y as Y _ _ end. auto. }
    subst d0. unfold dictionary in D. rewrite Kt, St, Ks in D. cbn [bind entries app] in D.
    match type of D with bind ?X _ = _ => destruct X as [[[d2 ok2] e2]| | |] eqn:E end; cbn [bind] in D; try discriminate.
    exists d', ok2, es0, e2, (if ok2 then check_required path d2 ks else []).
    destruct ok2; injection D as <- <- <-; (split; [auto|split; [now rewrite ?app_nil_r|split; auto]]).
Qed.

(* C95: the unknown keys of a dictionary are reported; missing keys are reported when there are no unknown keys *)
Theorem dictionary_keys_reported : forall fuel attributes enabled inside p path d s o ret es dt ks,
  run fuel attributes enabled inside (CItem p path (VDict d) s) = VOk (o, ret, es) ->
  plain_dict enabled s dt ks -> d <> [] ->
  (exists d', o = Some (VDict d') /\ dkeys d' = dkeys d) /\
  (forall k, In (EAttr path k) es <-> In k (dkeys d) /\ ~ In k (dkeys ks)) /\
  (forall k, In (EMissing path k) es <->
     (forall x, In x (dkeys d) -> In x (dkeys ks)) /\ exists s, In (k, s) ks /\ required s = true /\ ~ In k (dkeys d)).
Proof.
  intros fuel attributes enabled inside p path d s o ret es dt ks H P N. destruct fuel as [|fuel]; [discriminate|].
  destruct (plain_dict_run _ _ _ _ _ _ _ _ _ _ _ _ _ H P N) as [d' [ok [es1 [e2 [e3 [-> [-> [E ->]]]]]]]]. clear H.
  destruct (keys_step_spec (fun q v s => run fuel attributes enabled inside (CItem true q v s)) _ _ _ _ _ _ _ E) as [A [B [K [O1 [O2 _]]]]].
  assert (DEEP : forall x, In x e2 -> epath x = path -> exists k, In k (dkeys d) /\ dget k ks = None /\ x = EAttr path k).
  { intros x X Q. destruct (A x X) as [k [Ik [[Nk ->]|[s0 [v [o0 [r [e [_ [R Y]]]]]]]]]]; [eauto|]. exfalso.
    apply run_under in R. rewrite Forall_forall in R. specialize (R _ Y). cbn [cpath] in R. apply under_not_here in R. contradiction. }
  assert (NV : forall x, In x (map (EValue path) es1) -> exists e, x = EValue path e).
  { intros x X. apply in_map_iff in X. destruct X as [y [<- _]]. eauto. }
  assert (NC : forall x, In x (check_valid_with path d dt) -> exists a y, x = EConflict path a y).
  { intros x X. eapply valid_with_here; eauto. }
  assert (AllK : (forall k, In k (dkeys d) -> dget k ks <> None) <-> (forall x, In x (dkeys d) -> In x (dkeys ks))).
  { split; intros Q k Ik.
    - specialize (Q k Ik). destruct (dget k ks) eqn:D; [eapply dget_Some_key; eauto|congruence].
    - intros D. apply dget_None in D. apply D. auto. }
  split; [exists d'; auto|split].
  - intros k. split.
    + intros X. apply in_app_or in X. destruct X as [X|X]; [destruct (NV _ X); discriminate|].
      apply in_app_or in X. destruct X as [X|X]; [destruct (NC _ X) as [? [? ?]]; discriminate|].
      apply in_app_or in X. destruct X as [X|X].
      * destruct (DEEP _ X eq_refl) as [k0 [Ik [Nk Q]]]. injection Q as <-. split; [auto|now apply dget_None].
      * destruct ok; [|contradiction]. unfold check_required in X. apply in_flat_map in X. destruct X as [[k0 s0] [_ X]].
        destruct (required (snd (k0, s0)) && negb (dmem (fst (k0, s0)) d')); [|contradiction]. destruct X as [X|[]]. discriminate.
    + intros [Ik Nk]. apply in_or_app; right. apply in_or_app; right. apply in_or_app; left. apply B; [auto|now apply dget_None].
  - intros k. split.
    + intros X. apply in_app_or in X. destruct X as [X|X]; [destruct (NV _ X); discriminate|].
      apply in_app_or in X. destruct X as [X|X]; [destruct (NC _ X) as [? [? ?]]; discriminate|].
      apply in_app_or in X. destruct X as [X|X].
      * destruct (DEEP _ X eq_refl) as [k0 [Ik [Nk Q]]]. discriminate.
      * destruct ok; [|contradiction]. split; [apply AllK; now apply O1|].
        apply EValue_not_required in X. destruct X as [s0 [X1 [X2 X3]]]. exists s0. rewrite <- K. auto.
    + intros [Q [s0 [X1 [X2 X3]]]]. pose proof (proj2 AllK Q) as Q2. rewrite (O2 Q2).
      apply in_or_app; right. apply in_or_app; right. apply in_or_app; right. apply EValue_not_required. exists s0. rewrite K. auto.
Qed.

(* [s] and [v] lead to the definition [s'] and the value [v'] through dictionaries with the given keys *)
Inductive inner (enabled : list string) : val -> val -> list string -> val -> val -> Prop :=
| inner_here : forall s v, inner enabled s v [] s v
| inner_key : forall s dt ks d k s1 v1 r s' v', plain_dict enabled s dt ks -> NoDup (dkeys d) ->
    dget k ks = Some s1 -> dget k d = Some v1 -> inner enabled s1 v1 r s' v' -> inner enabled s (VDict d) (k :: r) s' v'.

(* C95: nested values are validated however deep they are, and what is wrong with them is part of the report *)
Theorem nested_values_validated : forall enabled s v ks s' v', inner enabled s v ks s' v' ->
  forall fuel attributes inside path o ret es,
  run fuel attributes enabled inside (CItem true path v s) = VOk (o, ret, es) ->
  exists fuel' o' ret' es', run fuel' attributes enabled inside (CItem true (path ++ map PK ks) v' s') = VOk (o', ret', es') /\
    incl es' es.
Proof.
  induction 1 as [s v|s dt ks d k s1 v1 r s' v' P U Dk Dv _ IH]; intros fuel attributes inside path o ret es H.
  - exists fuel, o, ret, es. cbn [map]. rewrite app_nil_r. split; [auto|apply incl_refl].
  - destruct fuel as [|fuel]; [discriminate|].
    assert (Nd : d <> []) by (intros ->; discriminate).
    destruct (plain_dict_run _ _ _ _ _ _ _ _ _ _ _ _ _ H P Nd) as [d' [ok [es1 [e2 [e3 [-> [-> [E ->]]]]]]]].
    destruct (keys_step_spec (fun q v s => run fuel attributes enabled inside (CItem true q v s)) _ _ _ _ _ _ _ E) as [_ [_ [_ [_ [_ Q]]]]].
    destruct (Q U k v1 s1 Dv Dk) as [w [r0 [e [R [_ I]]]]].
    destruct (IH _ _ _ _ _ _ _ R) as [fuel' [o' [ret' [es' [R' I']]]]].
    exists fuel', o', ret', es'. split.
    + rewrite <- R'. cbn [map]. rewrite <- app_assoc. reflexivity.
    + intros x X. apply in_or_app; right. apply in_or_app; right. apply in_or_app; left. apply I. now apply I'.
Qed.
End Props.

(* ---- concrete cases ---- *)

Transparent get_attribute_namespaces get_valid_attributes.

(* the types of data/types.py used in the cases below *)
Definition std_types (n : string) (ps : dict val) : option tspec :=
  if String.eqb n "int" then Some (mk_tspec (must_be_int None None) None None)
  else if String.eqb n "bool" then Some (mk_tspec must_be_bool None None)
  else if String.eqb n "str" then Some (mk_tspec must_be_str None (Some (VStr "")))
  else if String.eqb n "list" then
    Some (mk_tspec (must_be_list (match dget "make_list" ps with Some v => truthy v | None => false end)) (Some (VList [])) (Some (VList [])))
  else if String.eqb n "dict" then Some (mk_tspec must_be_dict (Some (VDict [])) (Some (VDict [])))
  else None.

Definition no_modules (_ : string) : dict val := [].

Lemma std_dict : forall a t d, std_types "dict" a = Some t -> ts_test t (VDict d) = Valid (VDict d).
Proof. intros a t d H. injection H as <-. reflexivity. Qed.

Definition ex_attributes : dict val :=
  [("node", VDict [("id", VDict [("type", VStr "int"); ("_required", VBool true)]); ("mtu", VStr "int");
                   ("name", VDict [("type", VStr "str"); ("_valid_with", VList [VStr "id"])]);
                   ("cfg", VDict [("cost", VStr "int"); ("area", VDict [("x", VStr "int"); ("y", VDict [("type", VStr "int"); ("_required", VBool true)])])])])].

Definition ex_run (d : dict val) : vres ires :=
  run [] std_types no_modules ["bgp"; "ospf"] 6 ex_attributes ["bgp"] false (CAttrs [PK "nodes"; PK "r1"] (VDict d) ["node"] ["_"]).

(* an unknown attribute, an attribute of a module that is not enabled, a missing attribute and a nested wrong value *)
Example ex_report : ex_run [("color", VStr "red"); ("ospf", VDict []); ("_x", VInt 1); ("cfg", VDict [("area", VDict [("x", VStr "a")])])]
  = VOk (Some (VDict [("color", VStr "red"); ("ospf", VDict []); ("_x", VInt 1); ("cfg", VDict [("area", VDict [("x", VStr "a")])])]), VNull,
      [EMissing [PK "nodes"; PK "r1"] "id"; EInvalid [PK "nodes"; PK "r1"] "color"; EModule [PK "nodes"; PK "r1"] "ospf";
       EValue [PK "nodes"; PK "r1"; PK "cfg"; PK "area"; PK "x"] WrongType; EMissing [PK "nodes"; PK "r1"; PK "cfg"; PK "area"] "y"]).
Proof. reflexivity. Qed.

Example ex_valid_for : exists ns valid, valid_for ex_attributes ["node"] ns valid /\ is_name valid = false /\
  dkeys (entries valid) = ["id"; "mtu"; "name"; "cfg"] /\ NoDup (dkeys (entries valid)).
Proof.
  do 2 eexists. split; [split; reflexivity|split; [reflexivity|split; [reflexivity|]]].
  cbn. repeat constructor; cbn; intuition congruence.
Qed.

Example ex_conflict : ex_run [("id", VInt 1); ("name", VStr "a"); ("mtu", VInt 9000)]
  = VOk (Some (VDict [("id", VInt 1); ("name", VStr "a"); ("mtu", VInt 9000)]), VNull, [EConflict [PK "nodes"; PK "r1"] "name" ["mtu"]]).
Proof. reflexivity. Qed.

Definition ex_cfg : val := VDict [("cost", VStr "int"); ("area", VDict [("x", VStr "int"); ("y", VDict [("type", VStr "int"); ("_required", VBool true)])])].

Example ex_inner : inner [] [] ex_cfg (VDict [("area", VDict [("x", VStr "a")])]) ["area"; "x"] (VStr "int") (VStr "a").
Proof.
  eapply inner_key; [repeat split; reflexivity|repeat constructor; intros []|reflexivity|reflexivity|].
  eapply inner_key; [repeat split; reflexivity|repeat constructor; intros []|reflexivity|reflexivity|apply inner_here].
Qed.

(* the unknown key hides the missing one *)
Example ex_unknown_key : run [] std_types no_modules [] 6 [] [] false
  (CItem true [] (VDict [("z", VInt 1)]) (VDict [("y", VDict [("type", VStr "int"); ("_required", VBool true)])]))
  = VOk (Some (VDict [("z", VInt 1)]), VBool false, [EAttr [] "z"]).
Proof. reflexivity. Qed.

Print Assumptions validation_error_paths.
Print Assumptions object_attributes_reported.
Print Assumptions object_attributes_kept.
Print Assumptions conflicts_reported.
Print Assumptions in_parent_type_test.
Print Assumptions dictionary_keys_reported.
Print Assumptions nested_values_validated.
