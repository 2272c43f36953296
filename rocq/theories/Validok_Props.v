(* What data conform to after a validation without errors, and what the validation does not notice (Valid_Model). *)
From Coq Require Import String Ascii ZArith Lia Bool List.
From Verif Require Import Base Box_Model Box_Props Types_Model Valid_Model Valid_Props.
Import ListNotations.
Local Open Scope string_scope.
Local Open Scope list_scope.

(* a hint for conversion only: the fuel of these functions is a literal *)
Opaque get_attribute_namespaces get_valid_attributes.

Section Conform.
Variable topo : dict val.
Variable types : string -> dict val -> option tspec.
Variable mattrs : string -> dict val.
Variable mods : list string.

Notation run := (run topo types mattrs mods).

(* ------------------------------------------------------------------ *)
(* Specification                                                        *)

(* a type accepts [v]: it is what the type makes of some value; list elements may be left as they were *)
Definition accepted (p : bool) (t : tspec) (values : list val) (v w : val) : Prop :=
  exists v0, ts_test t v0 = Valid w /\ (values = [] \/ check_valid_values values w = true) /\ (v = w \/ (p = false /\ v = v0)).

(* the attribute is usable: its definition is [dt] and the modules it needs are enabled *)
Definition usable (enabled : list string) (s : val) (dt : dict val) : Prop :=
  transform topo s = Some dt /\ forall m, In m (strings_at "_requires" dt) -> In m enabled.

(* attributes [attributes], enabled modules, inside a module; in a dictionary or in a list, definition, value *)
Inductive conf (enabled : list string) : dict val -> bool -> bool -> val -> val -> Prop :=
| C_any : forall A ins p v, conf enabled A ins p VNull v
| C_alt_name : forall A ins p s dt v, usable enabled s dt ->
    In (type_name v) (strings_at "_alt_types" dt) -> conf enabled A ins p s v
| C_alt : forall A ins p s dt a t v0 w v, usable enabled s dt ->
    In a (strings_at "_alt_types" dt) -> types a [] = Some t -> ts_test t v0 = Valid w -> v = w \/ v = v0 ->
    conf enabled A ins p s v
| C_empty : forall A ins p s dt t v w, usable enabled s dt -> types (name_of dt) (params dt) = Some t ->
    accepted p t (values_of dt) v w -> truthy w = false -> conf enabled A ins p s v
| C_leaf : forall A ins p s dt t v w, usable enabled s dt -> types (name_of dt) (params dt) = Some t ->
    accepted p t (values_of dt) v w -> name_of dt <> "dict" -> (name_of dt = "list" -> dget "_subtype" dt = None) ->
    conf enabled A ins p s v
| C_list : forall A ins p s dt st l, usable enabled s dt -> name_of dt = "list" -> dget "_subtype" dt = Some st ->
    (forall x, In x l -> sub_conf enabled A ins false st x) -> conf enabled A ins p s (VList l)
| C_dict : forall A ins p s dt d, usable enabled s dt -> name_of dt = "dict" ->
    (* the keys have the right type *)
    (forall n, dget "_keytype" dt = Some (VStr n) -> exists t, types n [] = Some t /\
       forall k, In k (dkeys d) -> exists w, ts_test t (VStr k) = Valid w) ->
    (* the values have the right type *)
    (forall st, dget "_subtype" dt = Some st -> dget "_keys" dt = None ->
       forall k v, dget k d = Some v -> sub_conf enabled A ins true st v) ->
    (* the keys are known and have the right values *)
    (forall ks, dget "_keys" dt = Some ks -> forall k v, dget k d = Some v ->
       exists s, dget k (entries ks) = Some s /\ conf enabled A ins true s v) ->
    (* nothing is missing *)
    (forall ks, dget "_keys" dt = Some ks -> dget "_keytype" dt = None -> dget "_subtype" dt = None ->
       forall k s, In (k, s) (entries ks) -> required s = true -> In k (dkeys d)) ->
    (* no conflicts *)
    (forall a x, In a (dkeys d) -> In x (dkeys d) -> ~ excludes (keys_of dt) a x) ->
    conf enabled A ins p s (VDict d)
(* the elements of a list or dictionary: a definition or the name of an object type *)
with sub_conf (enabled : list string) : dict val -> bool -> bool -> val -> val -> Prop :=
| S_object : forall A ins p n v, In n (dkeys A) -> conf_object enabled A ins [n] ["_"] v -> sub_conf enabled A ins p (VStr n) v
| S_item : forall A ins p st v, (forall n, st = VStr n -> ~ In n (dkeys A)) -> conf enabled A ins p st v ->
    sub_conf enabled A ins p st v
(* objects with attributes from a list of namespaces *)
with conf_object (enabled : list string) : dict val -> bool -> list string -> list string -> val -> Prop :=
| O_type : forall A ins l ignored ns t ts v w, valid_for A l ns (VStr t) -> types t [] = Some ts -> ts_test ts v = Valid w ->
    conf_object enabled A ins l ignored v
| O_none : forall A ins l ignored, conf_object enabled A ins l ignored VNull
| O_dict : forall A ins l ignored ns valid d, valid_for A l ns valid -> is_name valid = false ->
    (forall k s, In (k, s) (entries valid) -> required s = true -> In k (dkeys d)) ->
    (forall a x, In a (dkeys d) -> In x (dkeys d) -> ~ excludes (keys_of (entries valid)) a x) ->
    (forall k v, dget k d = Some v ->
       ignored_key ignored k \/
       (exists s, dget k (entries valid) = Some s /\ conf enabled A ins true s v) \/
       (dget k (entries valid) = None /\ In k enabled /\ ins = false /\
        (v = VDict [] \/
         (v = VBool false /\ can_be "can_be_false" A ns = true) \/
         (v = VBool true /\ can_be "can_be_true" (mattrs k) ns = true) \/
         conf_object enabled (mattrs k) true ns ["_"] v))) ->
    conf_object enabled A ins l ignored (VDict d).

(* ------------------------------------------------------------------ *)

Lemma missing_none : forall enabled s dt, transform topo s = Some dt -> missing_modules enabled dt = [] -> usable enabled s dt.
Proof.
  intros enabled s dt T M. split; [auto|]. intros m I. destruct (memS m enabled) eqn:E; [now apply memS_true|].
  assert (X : In m (missing_modules enabled dt)) by (apply filter_In; split; [auto|now rewrite E]).
  rewrite M in X. contradiction.
Qed.

Lemma alone_ok : forall t values v w, alone t values v = (w, []) ->
  ts_test t v = Valid w /\ (values = [] \/ check_valid_values values w = true).
Proof.
  intros t values v w H. unfold alone in H. destruct (ts_test t v) as [x| |]; try discriminate.
  destruct values as [|y ys]; [injection H as ->; auto|].
  destruct (check_valid_values (y :: ys) x) eqn:E; [|discriminate]. injection H as ->. auto.
Qed.

Lemma alone_nil : forall t v, snd (alone t [] v) = [] -> exists w, ts_test t v = Valid w.
Proof. intros t v H. unfold alone in H. destruct (ts_test t v); try discriminate. eauto. Qed.

Lemma in_parent_ok : forall t create tv values v o ret, in_parent t create tv values v = (o, ret, []) ->
  o = None \/ exists v0, ts_test t v0 = Valid ret /\ (values = [] \/ check_valid_values values ret = true) /\ o = Some ret.
Proof.
  intros t create tv values v o ret H. unfold in_parent in H.
  destruct (replaced t create tv v) as [x|]; [|injection H as <- _; auto].
  right. exists x. destruct (ts_test t x) as [w| |]; try discriminate.
  destruct values as [|y ys]; [injection H as <- <-; auto|].
  destruct (check_valid_values (y :: ys) w) eqn:E; [|discriminate]. injection H as <- <-. auto.
Qed.

Lemma type_call_ok : forall p t dt v o ret, type_call p t dt v = (o, ret, []) ->
  o = None \/ exists x, o = Some x /\ accepted p t (values_of dt) x ret /\ (p = true -> x = ret) /\ accepted p t (values_of dt) ret ret.
Proof.
  intros p t dt v o ret H. unfold type_call in H. destruct p.
  - apply in_parent_ok in H. destruct H as [->|[v0 [T [V ->]]]]; [auto|]. right. exists ret.
    split; [auto|split; [exists v0; auto|split; [auto|exists v0; auto]]].
  - right. destruct (alone t (values_of dt) v) as [w es] eqn:A. cbn [fst snd] in H. injection H as <- <- ->.
    apply alone_ok in A. destruct A as [T V]. exists v. split; [auto|split; [exists v; auto|split; [discriminate|exists v; auto]]].
Qed.

Lemma alt_loop_some : forall alts v w, alt_loop types alts v = Some w ->
  exists a t, In a alts /\ types a [] = Some t /\ ts_test t v = Valid w.
Proof.
  induction alts as [|a r IH]; intros v w H; cbn [alt_loop] in H; [discriminate|].
  destruct (types a []) as [t|] eqn:T.
  - destruct (ts_test t v) as [x| |] eqn:E.
    + injection H as ->. exists a, t. split; [now left|auto].
    + destruct (IH _ _ H) as [b [u [I Q]]]. exists b, u. split; [now right|auto].
    + destruct (IH _ _ H) as [b [u [I Q]]]. exists b, u. split; [now right|auto].
  - destruct (IH _ _ H) as [b [u [I Q]]]. exists b, u. split; [now right|auto].
Qed.

Lemma alt_result_some : forall dt n v r, alt_result types dt n v = Some r ->
  match r with
  | None => In (type_name v) (strings_at "_alt_types" dt)
  | Some w => exists a t, In a (strings_at "_alt_types" dt) /\ types a [] = Some t /\ ts_test t v = Valid w
  end.
Proof.
  intros dt n v r H. unfold alt_result in H. unfold strings_at. destruct (dget "_alt_types" dt) as [alts|]; [|discriminate].
  destruct (String.eqb (type_name v) n); [discriminate|]. unfold alt_type in H.
  destruct (memS (type_name v) (strings alts)) eqn:M.
  - injection H as <-. now apply memS_true.
  - destruct (alt_loop types (strings alts) v) as [w|] eqn:A; [|discriminate]. injection H as <-. now apply alt_loop_some.
Qed.

(* the results of a loop without errors *)
Lemma flat_map_nil : forall A B (f : A -> list B) l, flat_map f l = [] <-> forall x, In x l -> f x = [].
Proof.
  induction l as [|a l IH]; cbn [flat_map]; [split; [intros _ x []|auto]|].
  rewrite app_nil_iff, IH. split.
  - intros [H1 H2] x [<-|X]; auto.
  - intros H. split; [apply H; now left|]. intros x X. apply H. now right.
Qed.

Lemma dictionary_conf : forall (it : list pstep -> val -> val -> vres ires) at_ A enabled ins path d dt d' ok,
  (forall q v s w r, it q v s = VOk (Some w, r, []) -> conf enabled A ins true s w) ->
  (forall q v n w r, at_ q v n = VOk (Some w, r, []) -> conf_object enabled A ins [n] ["_"] w) ->
  dictionary types it at_ A path d dt = VOk (d', ok, []) ->
  dkeys d' = dkeys d /\
  (forall n, dget "_keytype" dt = Some (VStr n) -> exists t, types n [] = Some t /\
       forall k, In k (dkeys d') -> exists w, ts_test t (VStr k) = Valid w) /\
  (forall st, dget "_subtype" dt = Some st -> dget "_keys" dt = None ->
       forall k v, dget k d' = Some v -> sub_conf enabled A ins true st v) /\
  (forall ks, dget "_keys" dt = Some ks -> forall k v, dget k d' = Some v ->
       exists s, dget k (entries ks) = Some s /\ conf enabled A ins true s v) /\
  (forall ks, dget "_keys" dt = Some ks -> dget "_keytype" dt = None -> dget "_subtype" dt = None ->
       forall k s, In (k, s) (entries ks) -> required s = true -> In k (dkeys d')).
Proof.
  intros it at_ A enabled ins path d dt d' ok Hit Hat H. unfold dictionary in H.
  destruct (match dget "_keytype" dt with
        | None => VOk (true, [])
        | Some (VStr n) => match types n [] with
                           | None => VFatal
                           | Some t => VOk (forallb (fun k => truthy (fst (alone t [] (VStr k)))) (dkeys d),
                             flat_map (fun k => map (EKey path k) (snd (alone t [] (VStr k)))) (dkeys d))
                           end
        | Some _ => VFatal end) as [[ok0 e0]| | |] eqn:K; cbn [bind] in H; try discriminate.
  match type of H with bind ?X _ = _ => destruct X as [[[d1 ok1] e1]| | |] eqn:B end; cbn [bind] in H; try discriminate.
  assert (U1 : dkeys d1 = dkeys d /\ (e1 = [] -> forall st, dget "_subtype" dt = Some st -> forall k v, dget k d1 = Some v -> sub_conf enabled A ins true st v)
     /\ (dget "_subtype" dt = None -> d1 = d /\ ok1 = ok0 /\ e1 = [])).
  { destruct (dget "_subtype" dt) as [st|].
    2:{ injection B as <- <- <-. split; [auto|split; [discriminate|auto]]. }
    match type of B with each ?g _ _ = _ => set (gg := g) in B end.
    assert (ST : forall k s s' e v, dget k (fst s) = Some v -> gg k s = VOk (s', e) ->
       exists w, fst s' = dset k w (fst s) /\ (e = [] -> sub_conf enabled A ins true st w)).
    { intros k [x0 ok3] [x1 ok4] e v D G. unfold gg in G. cbn [fst] in *.
      match type of G with bind ?X _ = _ => destruct X as [[[y r] f]| | |] eqn:Q0 end; cbn [bind] in G; try discriminate.
      injection G as <- <- <-. apply at_key_inv in Q0. rewrite D in Q0. destruct Q0 as [w [Q ->]]. exists w. split; [auto|]. intros ->.
      destruct st as [| | |n| |]; try (apply S_item; [intros n0 Ei; discriminate|eapply Hit; exact Q]).
      destruct (dmem n A) eqn:Mn.
      - apply S_object; [now apply dmem_true|]. eapply Hat; exact Q.
      - apply S_item; [intros n0 Ei; injection Ei as <-; intros X; apply dmem_true in X; congruence|]. eapply Hit; exact Q. }
    assert (I : incl (dkeys d) (dkeys (fst (d, ok0)))) by apply incl_refl.
    destruct (each_spec _ fst gg (fun _ _ w e => e = [] -> sub_conf enabled A ins true st w) ST _ _ _ _ I B) as [_ [Q _]].
    pose proof (each_keys _ fst gg (fun _ _ w e => e = [] -> sub_conf enabled A ins true st w) ST _ _ _ _ I B) as Kd. cbn [fst] in Kd, Q.
    split; [auto|split; [|discriminate]]. intros -> st0 E0 k v D. injection E0 as <-.
    assert (Ik : In k (dkeys d)) by (rewrite <- Kd; eapply dget_Some_key; eauto).
    destruct (Q k Ik) as [v0 [w [e [Dw [R Inc]]]]]. assert (w = v) as -> by congruence. apply R.
    destruct e as [|x e]; [auto|]. destruct (Inc x (or_introl eq_refl)). }
  destruct U1 as [K1 [S1 N1]].
  assert (KT : e0 = [] -> forall n, dget "_keytype" dt = Some (VStr n) -> exists t, types n [] = Some t /\
       forall k, In k (dkeys d) -> exists w, ts_test t (VStr k) = Valid w).
  { intros E0 n Kn. rewrite Kn in K. destruct (types n []) as [t|]; [|discriminate]. injection K as _ K. exists t. split; [auto|].
    intros k Ik. rewrite E0 in K. rewrite flat_map_nil in K. specialize (K k Ik). apply map_nil_iff in K. now apply alone_nil. }
  assert (K0 : dget "_keytype" dt = None -> ok0 = true) by (intros Kn; rewrite Kn in K; now injection K as <- <-).
  destruct (dget "_keys" dt) as [ks|].
  2:{ injection H as -> <- H. apply app_nil_iff in H. destruct H as [E0 E1]. split; [auto|split; [|split; [|split; discriminate]]].
      - rewrite K1. auto.
      - intros st Est _. eapply S1; eauto. }
  match type of H with bind ?X _ = _ => destruct X as [[[d2 ok2] e2]| | |] eqn:C end; cbn [bind] in H; try discriminate.
  match type of C with each ?g _ _ = _ => set (gg := g) in C end.
  assert (ST : forall k s s' e v, dget k (fst s) = Some v -> gg k s = VOk (s', e) ->
     exists w, fst s' = dset k w (fst s) /\ (e = [] -> exists s, dget k (entries ks) = Some s /\ conf enabled A ins true s w)).
  { intros k [x0 ok3] [x1 ok4] e v D G. unfold gg in G. cbn [fst] in *.
    destruct (dget k (entries ks)) as [s|].
    - match type of G with bind ?X _ = _ => destruct X as [[[y r] f]| | |] eqn:Q0 end; cbn [bind] in G; try discriminate.
      injection G as <- <- <-. apply at_key_inv in Q0. rewrite D in Q0. destruct Q0 as [w [Q ->]]. exists w. split; [auto|].
      intros ->. exists s. split; [auto|]. eapply Hit; exact Q.
    - injection G as <- <- <-. exists v. split; [symmetry; now apply dset_id|discriminate]. }
  assert (I : incl (dkeys d1) (dkeys (fst (d1, ok1)))) by apply incl_refl.
  destruct (each_spec _ fst gg _ ST _ _ _ _ I C) as [_ [Q _]].
  pose proof (each_keys _ fst gg _ ST _ _ _ _ I C) as Kd. cbn [fst] in Kd, Q.
  assert (FIN : d' = d2 /\ e0 = [] /\ e2 = [] /\ (ok2 = true -> check_required path d2 (entries ks) = [])).
  { destruct ok2.
    - injection H as -> _ H. apply app_nil_iff in H. destruct H as [E0 H]. apply app_nil_iff in H. destruct H as [E1 H].
      apply app_nil_iff in H. destruct H as [E2 E3]. auto.
    - injection H as -> _ H. apply app_nil_iff in H. destruct H as [E0 H]. apply app_nil_iff in H. destruct H as [E1 E2].
      split; [auto|split; [auto|split; [auto|discriminate]]]. }
  destruct FIN as [-> [E0 [E2 E3]]].
  assert (VALS : forall k v, dget k d2 = Some v -> exists s, dget k (entries ks) = Some s /\ conf enabled A ins true s v).
  { intros k v D. assert (Ik : In k (dkeys d1)) by (rewrite <- Kd; eapply dget_Some_key; eauto).
    destruct (Q k Ik) as [v0 [w [e [Dw [R Inc]]]]]. assert (w = v) as -> by congruence. apply R.
    destruct e as [|x e]; [auto|]. exfalso. specialize (Inc x (or_introl eq_refl)). rewrite E2 in Inc. contradiction. }
  split; [congruence|split; [|split; [discriminate|split]]].
  - rewrite Kd, K1. auto.
  - intros ks0 Eks. injection Eks as <-. exact VALS.
  - intros ks0 Eks Kn Sn k s Iks Rq. injection Eks as <-. destruct (N1 Sn) as [_ [O1 _]].
    assert (OK : ok2 = true).
    { assert (G : forall l d0 o0 d1 o1 es0, each gg l (d0, o0) = VOk ((d1, o1), es0) -> es0 = [] -> o1 = o0).
      { clear. induction l as [|k r IH]; intros d0 o0 d1 o1 es0 H T; cbn [each] in H.
        - now injection H as <- <- <-.
        - destruct (gg k (d0, o0)) as [[[d2 o2] e2]| | |] eqn:G; cbn [bind] in H; try discriminate.
          destruct (each gg r (d2, o2)) as [[[d3 o3] e3]| | |] eqn:F; cbn [bind] in H; try discriminate.
          injection H as <- <- <-. apply app_nil_iff in T. destruct T as [-> ->].
          rewrite (IH _ _ _ _ _ F eq_refl). unfold gg in G.
          destruct (dget k (entries ks)) as [s|]; [|discriminate].
          match type of G with bind ?X _ = _ => destruct X as [[[y z] f]| | |] end; cbn [bind] in G; try discriminate.
          inversion G; subst; auto. }
      rewrite (G _ _ _ _ _ _ C E2), O1. auto. }
    specialize (E3 OK). destruct (in_dec string_dec k (dkeys d2)) as [Y|Y]; [auto|]. exfalso.
    assert (X : In (EMissing path k) (check_required path d2 (entries ks))) by (apply EValue_not_required; exists s; auto).
    rewrite E3 in X. contradiction.
Qed.

Lemma elements_conf : forall (it : list pstep -> val -> val -> vres ires) at_ A enabled ins path st l n l' ok,
  (forall q v s o r, it q v s = VOk (o, r, []) -> (forall w, o = Some w -> conf enabled A ins false s w) /\ o <> None /\
     match r with VBool _ => True | x => conf enabled A ins false s x end) ->
  (forall q v n o r, at_ q v n = VOk (o, r, []) -> o <> None /\ forall w, o = Some w -> conf_object enabled A ins [n] ["_"] w) ->
  elements it at_ A path st n l = VOk (l', ok, []) -> forall x, In x l' -> sub_conf enabled A ins false st x.
Proof.
  induction l as [|v r IH]; intros n l' ok Hit Hat H x X; cbn [elements] in H.
  { injection H as <- <-. contradiction. }
  match type of H with bind ?Y _ = _ => destruct Y as [[[o ret] e]| | |] eqn:A0 end; cbn [bind] in H; try discriminate.
  match type of H with bind ?Y _ = _ => destruct Y as [[[r' ok'] es']| | |] eqn:B end; cbn [bind] in H; try discriminate.
  injection H as <- <- H. apply app_nil_iff in H. destruct H as [-> ->].
  destruct X as [<-|X]; [|eapply IH; eauto].
  assert (G : forall st0, it (path ++ [PI n]) v st0 = VOk (o, ret, []) ->
     conf enabled A ins false st0 (match ret with VBool _ => match o with Some w => w | None => v end | x => x end)).
  { intros st0 E. destruct (Hit _ _ _ _ _ E) as [P1 [P2 P3]]. destruct o as [w|]; [|congruence].
    destruct ret; auto. }
  destruct st as [| | |t| |]; try (apply S_item; [intros n0 Ei; discriminate|apply G; exact A0]).
  destruct (dmem t A) eqn:Mn.
  - destruct (at_ (path ++ [PI n]) v t) as [[[o1 r1] e1]| | |] eqn:Q; cbn [bind] in A0; try discriminate.
    injection A0 as <- <- ->. destruct (Hat _ _ _ _ _ Q) as [P1 P2]. destruct o1 as [w|]; [|congruence].
    apply S_object; [now apply dmem_true|auto].
  - apply S_item; [intros n0 Ei; injection Ei as <-; intros Y; apply dmem_true in Y; congruence|]. apply G. exact A0.
Qed.

Lemma run_conf : forall fuel A enabled ins c o ret, run fuel A enabled ins c = VOk (o, ret, []) ->
  match c with
  | CItem p _ _ s => (forall w, o = Some w -> conf enabled A ins p s w) /\
      (p = false -> o <> None /\ match ret with VBool _ => True | x => conf enabled A ins false s x end)
  | CAttrs _ v l ignored => o <> None /\ (forall w, o = Some w -> conf_object enabled A ins l ignored w) /\
      (v = VNull -> ret = VDict [] \/ conf_object enabled A ins l ignored ret)
  end.
Proof.
  induction fuel as [|fuel IH]; intros A enabled ins c o ret H; [discriminate|].
  destruct c as [p path v s|path v l ignored]; cbn [Valid_Model.run] in H.
  - assert (Hit : forall q v s w r, run fuel A enabled ins (CItem true q v s) = VOk (Some w, r, []) -> conf enabled A ins true s w).
    { intros q v0 s0 w r R. apply IH in R. apply R. auto. }
    assert (Hat : forall q v n o r, run fuel A enabled ins (CAttrs q v [n] ["_"]) = VOk (o, r, []) ->
      o <> None /\ forall w, o = Some w -> conf_object enabled A ins [n] ["_"] w).
    { intros q v0 n o0 r R. apply IH in R. destruct R as [R1 [R2 _]]. auto. }
    apply item_body_inv in H. inversion H; subst; clear H.
    + split; [intros w E; injection E as <-; apply C_any|]. intros _. split; [discriminate|auto].
    + exfalso. match goal with X : map _ _ = [] |- _ => apply map_nil_iff in X; congruence end.
    + match goal with T : transform topo s = Some ?dt, M : missing_modules _ ?dt = [] |- _ => pose proof (missing_none _ _ _ T M) as U end.
      match goal with X : alt_result _ _ _ _ = _ |- _ => apply alt_result_some in X; rename X into AR end.
      split; [intros w E; injection E as <-; eapply C_alt_name; eauto|]. intros _. split; [discriminate|auto].
    + match goal with T : transform topo s = Some ?dt, M : missing_modules _ ?dt = [] |- _ => pose proof (missing_none _ _ _ T M) as U end.
      match goal with X : alt_result _ _ _ _ = _ |- _ => apply alt_result_some in X; destruct X as [a [t [AR1 [AR2 AR3]]]] end.
      split.
      * intros x E. injection E as <-. eapply C_alt; eauto. destruct (p && truthy w); auto.
      * intros ->. split; [discriminate|]. destruct (truthy w); [|auto].
        assert (CC : conf enabled A ins false s w) by (eapply C_alt; eauto). destruct w; auto.
    + match goal with T : transform topo s = Some ?dt, M : missing_modules _ ?dt = [] |- _ => pose proof (missing_none _ _ _ T M) as U end.
      match goal with X : map _ _ = [] |- _ => apply map_nil_iff in X; subst end.
      match goal with X : type_call _ _ _ _ = _ |- _ => pose proof (type_call_ok _ _ _ _ _ _ X) as TC; rename X into TCE end.
      destruct TC as [->|[x [-> [Ac [_ Ar]]]]].
      { split; [discriminate|]. intros ->. unfold type_call in TCE. discriminate. }
      split; [intros w E; injection E as <-; eapply C_empty; eauto|]. intros ->. split; [discriminate|].
      assert (CC : conf enabled A ins false s ret) by (eapply C_empty; eauto). destruct ret; auto.
    + match goal with T : transform topo s = Some ?dt, M : missing_modules _ ?dt = [] |- _ => pose proof (missing_none _ _ _ T M) as U end.
      match goal with X : map _ _ ++ _ = [] |- _ => apply app_nil_iff in X; destruct X as [X1 X2]; apply map_nil_iff in X1; subst end.
      match goal with X : type_call _ _ _ _ = _ |- _ => pose proof (type_call_ok _ _ _ _ _ _ X) as TC; rename X into TCE end.
      match goal with X : contents _ _ _ _ _ _ _ = _ |- _ => apply contents_inv in X; rename X into C end.
      assert (CC : exists w b, o = Some w /\ ret = VBool b /\ conf enabled A ins p s w).
      { destruct C as [[Nm [d [d' [ok [f [-> [-> [-> [E4 D]]]]]]]]]|[[Nm [Sb [-> [-> _]]]]|[[Nm [st [x [x' [ok [Sb [-> [-> [-> D]]]]]]]]]|[N1 [N2 [-> [-> _]]]]]]].
        - symmetry in E4. apply app_nil_iff in E4. destruct E4 as [E4 ->].
          apply (dictionary_conf (fun q v s => run fuel A enabled ins (CItem true q v s)) _ A enabled ins) in D; auto.
          2:{ intros q v0 n w r R. apply Hat in R. apply R. auto. }
          destruct D as [Kd [D1 [D2 [D3 D4]]]]. exists (VDict d'), ok. split; [auto|split; [auto|]].
          eapply C_dict; eauto. intros a x. rewrite Kd. unfold check_valid_with in E4. rewrite valid_with_nil in E4 by apply incl_refl. auto.
        - destruct TC as [->|[x [-> [Ac _]]]].
          + exfalso. unfold type_call, in_parent in TCE. destruct p; [|discriminate].
            match type of TCE with match ?Y with _ => _ end = _ => destruct Y as [y|] end.
            * destruct (ts_test t y); discriminate.
            * injection TCE as <-. discriminate.
          + exists x, true. split; [auto|split; [auto|]]. eapply C_leaf; eauto. rewrite Nm. discriminate.
        - exists (VList x'), ok. split; [auto|split; [auto|]]. eapply C_list; eauto. intros y Y.
          eapply (elements_conf (fun q v s => run fuel A enabled ins (CItem false q v s))); [| |exact D|exact Y].
          + intros q v0 s0 o0 r R. apply IH in R. destruct R as [R1 R2]. destruct (R2 eq_refl). auto.
          + exact Hat.
        - destruct TC as [->|[x [-> [Ac _]]]].
          + exfalso. unfold type_call, in_parent in TCE. destruct p; [|discriminate].
            match type of TCE with match ?Y with _ => _ end = _ => destruct Y as [y|] end.
            * destruct (ts_test t y); discriminate.
            * injection TCE as <-. discriminate.
          + exists x, true. split; [auto|split; [auto|]]. eapply C_leaf; eauto. congruence. }
      destruct CC as [w [b [-> [-> CC]]]]. split; [intros x E; injection E as <-; auto|]. intros _. split; [discriminate|auto].
  - apply attrs_body_inv in H. inversion H; subst; clear H.
    + match goal with X : map _ _ = [] |- _ => apply map_nil_iff in X; apply alone_nil in X; destruct X as [w T] end.
      split; [discriminate|split]; [intros x E; injection E as <-; eapply O_type; eauto|].
      intros ->. right. eapply O_type; eauto.
    + split; [discriminate|split; [intros w E; injection E as <-; apply O_none|auto]].
    + match goal with E : _ ++ _ ++ _ = [] |- _ => apply app_nil_iff in E; destruct E as [E1 E]; apply app_nil_iff in E; destruct E as [E2 ->] end.
      match goal with E : each _ _ _ = _ |- _ => apply each_steps in E; destruct E as [Kd [ST _]] end.
      split; [discriminate|split; [|discriminate]]. intros w E. injection E as <-. eapply O_dict; eauto.
      * intros k s Ik Rq. destruct (in_dec string_dec k (dkeys d')) as [Y|Y]; [auto|]. exfalso.
        assert (X : In (EMissing path k) (check_required path data (entries valid))) by (apply EValue_not_required; exists s; rewrite <- Kd; auto).
        rewrite E1 in X. contradiction.
      * intros a x. rewrite Kd. unfold check_valid_with in E2. rewrite valid_with_nil in E2 by apply incl_refl. auto.
      * intros k v D. assert (Ik : In k (dkeys data)) by (rewrite <- Kd; eapply dget_Some_key; eauto).
        destruct (ST k Ik) as [v0 [w [f [Dw [SR Inc]]]]]. assert (w = v) as -> by congruence. clear Dw.
        assert (F : f = []) by (destruct f as [|y f]; [auto|destruct (Inc y (or_introl eq_refl))]). subst f.
        inversion SR; subst.
        -- left. now apply ignored_key_iff.
        -- right; left. exists s. split; [auto|]. match goal with R : run _ _ _ _ _ = _ |- _ => apply IH in R; apply R end. auto.
        -- right; right. split; [auto|split; [auto|split; [auto|]]]. destruct b; auto.
        -- right; right. split; [auto|split; [auto|split; [auto|]]].
           match goal with R : run _ _ _ _ _ = _ |- _ => apply IH in R; destruct R as [R1 [R2 R3]] end.
           destruct o as [w|]; [|congruence].
           destruct v0; auto. destruct (R3 eq_refl) as [->|R4]; auto.
Qed.

(* C96: data validated without errors conform to the attribute definitions *)
Theorem validated_conforms : forall fuel attributes enabled path v l ignored o ret,
  run fuel attributes enabled false (CAttrs path v l ignored) = VOk (o, ret, []) ->
  exists v', o = Some v' /\ conf_object enabled attributes false l ignored v'.
Proof.
  intros fuel attributes enabled path v l ignored o ret H. apply run_conf in H. destruct H as [N [C _]].
  destruct o as [v'|]; [|congruence]. exists v'. auto.
Qed.
End Conform.

(* ---- concrete cases ---- *)

Example ex_conforms : exists v', conf_object [] std_types no_modules ["bgp"] ex_attributes false ["node"] ["_"] v' /\
  v' = VDict [("id", VInt 7); ("cfg", VDict [("cost", VInt 10)])].
Proof.
  destruct (validated_conforms [] std_types no_modules ["bgp"; "ospf"] 6 ex_attributes ["bgp"] [] (VDict [("id", VStr "7"); ("cfg", VDict [("cost", VStr "10")])])
    ["node"] ["_"] _ _ eq_refl) as [v' [E C]].
  exists v'. split; [exact C|]. now injection E as <-.
Qed.

(* a value of the wrong type does not conform *)
Example ex_not_conf : ~ conf [] std_types no_modules [] [] false true (VStr "int") (VStr "x").
Proof.
  intros H. inversion H; subst; try discriminate;
    match goal with U : usable _ _ _ _ |- _ => destruct U as [T _]; injection T as <- end; try discriminate;
    try (match goal with X : In _ _ |- _ => destruct X end; fail).
  - match goal with X : std_types _ _ = Some _ |- _ => injection X as <- end.
    match goal with X : accepted _ _ _ _ _ |- _ => destruct X as [v0 [X1 [_ [X2|[X2 _]]]]]; [|discriminate] end. subst.
    cbn [ts_test] in X1. unfold must_be_int, check_int_type in X1. destruct v0; try discriminate; destruct (py_int _); discriminate.
  - match goal with X : std_types _ _ = Some _ |- _ => injection X as <- end.
    match goal with X : accepted _ _ _ _ _ |- _ => destruct X as [v0 [X1 [_ [X2|[X2 _]]]]]; [|discriminate] end. subst.
    cbn [ts_test] in X1. unfold must_be_int, check_int_type in X1. destruct v0; try discriminate; destruct (py_int _); discriminate.
Qed.

Print Assumptions validated_conforms.
