(* What validation does to the values of attributes and to list elements, what it does not notice, and when it ends
   (Valid_Model). *)
From Coq Require Import String Ascii ZArith Lia Bool List.
From Verif Require Import Base Box_Model Box_Props Types_Model Valid_Model Valid_Props.
Import ListNotations.
Local Open Scope string_scope.
Local Open Scope list_scope.

(* a hint for conversion only: the fuel of these functions is a literal *)
Opaque get_attribute_namespaces get_valid_attributes.

Section Values.
Variable topo : dict val.
Variable types : string -> dict val -> option tspec.
Variable mattrs : string -> dict val.
Variable mods : list string.

Notation run := (run topo types mattrs mods).

(* ---- specification ---- *)

(* an attribute definition naming a type without contents: [t] is the type and [values] the accepted values *)
Definition simple (enabled : list string) (s : val) (dt : dict val) (t : tspec) : Prop :=
  transform topo s = Some dt /\ missing_modules enabled dt = [] /\ dget "_alt_types" dt = None /\
  dget "_list_to_dict" dt = None /\
  name_of dt <> "dict" /\ name_of dt <> "list" /\ types (name_of dt) (params dt) = Some t.

(* what is wrong with a value *)
Inductive verdict (t : tspec) (values : list val) (v : val) : val -> list terror -> Prop :=
| VD_ok : forall w, ts_test t v = Valid w -> (values = [] \/ check_valid_values values w = true) -> verdict t values v w []
| VD_value : forall w, ts_test t v = Valid w -> values <> [] -> check_valid_values values w = false -> verdict t values v w [InvalidValue]
| VD_type : ts_test t v = BadType -> verdict t values v v [WrongType]
| VD_range : ts_test t v = BadValue -> verdict t values v v [WrongValue].

Lemma simple_not_null : forall enabled s dt t, simple enabled s dt t -> s <> VNull.
Proof. intros enabled s dt t [T _] ->. discriminate. Qed.

(* C99: a value is checked with its type and the list of accepted values, and replaced by what the type makes of it *)
Theorem simple_value_exact : forall fuel attributes enabled inside path v s dt t o ret es,
  run fuel attributes enabled inside (CItem true path v s) = VOk (o, ret, es) -> simple enabled s dt t ->
  v <> VNull -> (forall b, v <> VBool b) ->
  exists w errs, verdict t (values_of dt) v w errs /\ o = Some w /\ es = map (EValue path) errs.
Proof.
  intros fuel attributes enabled inside path v s dt t o ret es H S Nn Nb.
  pose proof (simple_not_null _ _ _ _ S) as Ns. destruct S as [T [M [Al [Ld [N1 [N2 Ty]]]]]].
  destruct fuel as [|fuel]; [discriminate|]. cbn [Valid_Model.run] in H. apply item_body_inv in H.
  assert (L : list_to_dict dt v = v) by (unfold list_to_dict; rewrite Ld; destruct v; reflexivity).
  assert (R : replaced t (create_of (name_of dt) dt) (true_of dt) v = Some v).
  { unfold replaced. destruct v as [|b| | | |]; [congruence|now elim (Nb b)|..]; destruct (true_of dt); reflexivity. }
  assert (G : forall o1 ret1 es1, type_call true t dt v = (o1, ret1, es1) ->
     exists w, verdict t (values_of dt) v w es1 /\ o1 = Some w).
  { intros o1 ret1 es1 Y. unfold type_call, in_parent in Y. rewrite R in Y. destruct (ts_test t v) as [w| |] eqn:E.
    - injection Y as <- <- <-. exists w. split; [|auto]. destruct (values_of dt) as [|y ys] eqn:V.
      + apply VD_ok; auto.
      + destruct (check_valid_values (y :: ys) w) eqn:C; [apply VD_ok; auto|apply VD_value; auto; discriminate].
    - injection Y as <- <- <-. exists v. split; [now apply VD_type|auto].
    - injection Y as <- <- <-. exists v. split; [now apply VD_range|auto]. }
  inversion H; subst; clear H; try contradiction;
    match goal with X : transform topo s = Some _ |- _ => rewrite T in X; injection X as <- end.
  - congruence.
  - match goal with X : alt_result _ _ _ _ = _ |- _ => unfold alt_result in X; rewrite Al in X; discriminate end.
  - match goal with X : alt_result _ _ _ _ = _ |- _ => unfold alt_result in X; rewrite Al in X; discriminate end.
  - match goal with X : types _ _ = Some ?u |- _ => rewrite Ty in X; injection X as <- end.
    match goal with X : type_call _ _ _ _ = _ |- _ => rewrite L in X; apply G in X; destruct X as [w [X ->]] end.
    exists w, es0. auto.
  - match goal with X : types _ _ = Some ?u |- _ => rewrite Ty in X; injection X as <- end.
    match goal with X : type_call _ _ _ _ = _ |- _ => rewrite L in X; apply G in X; destruct X as [w [X ->]] end.
    match goal with C : contents _ _ _ _ _ _ _ = _ |- _ => apply contents_inv in C; rename C into K end.
    destruct K as [[K _]|[[K _]|[[K _]|[_ [_ [-> [-> ->]]]]]]]; try congruence.
    exists w, es0. split; [auto|split; [auto|]]. now rewrite app_nil_r.
Qed.

(* C99: every accepted attribute of an object is validated with its own definition, its errors are part of the report, and
   the object gets the validated value *)
Theorem object_values_validated : forall fuel attributes enabled inside path data l ignored o ret es ns valid,
  run fuel attributes enabled inside (CAttrs path (VDict data) l ignored) = VOk (o, ret, es) ->
  valid_for attributes l ns valid -> is_name valid = false -> NoDup (dkeys data) ->
  exists d', o = Some (VDict d') /\
    forall k v s, dget k data = Some v -> dget k (entries valid) = Some s -> ~ ignored_key ignored k ->
    exists fuel' w r e, run fuel' attributes enabled inside (CItem true (path ++ [PK k]) v s) = VOk (Some w, r, e) /\
      incl e es /\ dget k d' = Some w.
Proof.
  intros fuel attributes enabled inside path data l ignored o ret es ns valid H V N U.
  destruct fuel as [|fuel]; [discriminate|].
  destruct (run_attrs_dict _ _ _ _ _ _ _ _ _ _ _ _ _ _ _ _ _ H V N) as [d' [e [-> [_ [-> E]]]]]. clear H.
  exists d'. split; [auto|]. intros k v s D Ds G.
  assert (ST : forall k s s' f v, dget k s = Some v ->
    attr_step mattrs mods (fun p path v s => run fuel attributes enabled inside (CItem p path v s))
            (fun k path v ns => run fuel (mattrs k) enabled true (CAttrs path v ns ["_"])) attributes enabled inside path ns ignored (entries valid) k s = VOk (s', f) ->
    exists w, s' = dset k w s /\ stepR mattrs mods (fun p path v s => run fuel attributes enabled inside (CItem p path v s))
            (fun k path v ns => run fuel (mattrs k) enabled true (CAttrs path v ns ["_"])) attributes enabled inside path ns ignored (entries valid) k v w f).
  { intros k1 s1 s' f v1 D1 G1. eapply attr_step_inv; eauto. }
  assert (I : incl (dkeys data) (dkeys data)) by apply incl_refl.
  destruct (each_values _ (fun d => d) _ _ ST _ _ _ _ U I E k v) as [w [f [Dw [SR Inc]]]];
    [eapply dget_Some_key; eauto|auto|].
  apply ignored_key_false in G. inversion SR; subst; try congruence.
  match goal with X : dget k (entries valid) = Some ?s1 |- _ => assert (s1 = s) as -> by congruence end.
  match goal with R : run _ _ _ _ _ = VOk (_, ?r1, f) |- _ => exists fuel, w, r1, f; split; [exact R|] end.
  split; [|auto]. intros x X. apply in_or_app; right. apply in_or_app; right. auto.
Qed.

(* ---- list elements ---- *)

(* a list attribute with elements of a simple type *)
Definition list_of (enabled : list string) (attributes : dict val) (s st : val) (dt de : dict val) (t te : tspec) : Prop :=
  transform topo s = Some dt /\ name_of dt = "list" /\ missing_modules enabled dt = [] /\ dget "_alt_types" dt = None /\
  dget "_list_to_dict" dt = None /\ dget "_subtype" dt = Some st /\ types "list" (params dt) = Some t /\
  simple enabled st de te /\ (forall n, st = VStr n -> ~ In n (dkeys attributes)).

(* what becomes of one element: unlike dictionary values it is not replaced by what the type makes of it, with two
   exceptions - a value that is empty, zero or false, and a value of the wrong type, which is lost *)
Definition element_result (te : tspec) (v : val) : val :=
  match ts_test te v with
  | Valid w => if truthy w then v else match w with VBool _ => v | _ => w end
  | _ => VNull
  end.

Lemma elements_simple : forall fuel attributes enabled inside path st de te l n l' ok es,
  simple enabled st de te -> (forall n, st = VStr n -> ~ In n (dkeys attributes)) ->
  elements (fun q v s => run fuel attributes enabled inside (CItem false q v s))
    (fun path v n => run fuel attributes enabled inside (CAttrs path v [n] ["_"])) attributes path st n l = VOk (l', ok, es) ->
  l' = map (element_result te) l /\
  forall e, In e es <-> exists i v w errs x, nth_error l i = Some v /\ verdict te (values_of de) v w errs /\ In x errs /\
    e = EValue (path ++ [PI (n + i)]) x.
Proof.
  intros fuel attributes enabled inside path st de te l. induction l as [|v r IH]; intros n l' ok es S Na H; cbn [elements] in H.
  { injection H as <- _ <-. split; [reflexivity|]. intros e. split; [intros []|]. intros [i [v [w [errs [x [X _]]]]]]. destruct i; discriminate. }
  assert (Q : match st with
            | VStr t => if dmem t attributes
                        then bind (run fuel attributes enabled inside (CAttrs (path ++ [PI n]) v [t] ["_"])) (fun '(o, _, e) => VOk (o, VBool true, e))
                        else run fuel attributes enabled inside (CItem false (path ++ [PI n]) v st)
            | _ => run fuel attributes enabled inside (CItem false (path ++ [PI n]) v st)
            end = run fuel attributes enabled inside (CItem false (path ++ [PI n]) v st)).
  { destruct st as [| | |t| |]; try reflexivity. destruct (dmem t attributes) eqn:E; [|reflexivity].
    apply dmem_true in E. now elim (Na t eq_refl). }
  cbv beta in H. rewrite Q in H. clear Q.
  destruct (run fuel attributes enabled inside (CItem false (path ++ [PI n]) v st)) as [[[o ret] e]| | |] eqn:A; cbn [bind] in H; try discriminate.
  match type of H with bind ?X _ = _ => destruct X as [[[r' ok'] es']| | |] eqn:B end; cbn [bind] in H; try discriminate.
  injection H as <- _ <-. destruct (IH _ _ _ _ S Na B) as [-> IE]. clear IH B.
  pose proof (simple_not_null _ _ _ _ S) as Ns. destruct S as [T [M [Al [Ld [N1 [N2 Ty]]]]]].
  destruct fuel as [|fuel]; [discriminate|]. cbn [Valid_Model.run] in A. apply item_body_inv in A.
  set (er := match ts_test te v with Valid w => match values_of de with [] => [] | _ => if check_valid_values (values_of de) w then [] else [InvalidValue] end
             | BadType => [WrongType] | BadValue => [WrongValue] end).
  assert (VD : forall x, In x er <-> exists w errs, verdict te (values_of de) v w errs /\ In x errs).
  { intros x. unfold er. split.
    - intros X. destruct (ts_test te v) as [w| |] eqn:E.
      + destruct (values_of de) as [|y ys] eqn:V; [contradiction|].
        destruct (check_valid_values (y :: ys) w) eqn:C; [contradiction|]. exists w, [InvalidValue]. split; [|auto].
        apply VD_value; auto. discriminate.
      + exists v, [WrongType]. split; [now apply VD_type|auto].
      + exists v, [WrongValue]. split; [now apply VD_range|auto].
    - intros [w [errs [D X]]]. inversion D; subst; try contradiction.
      + match goal with E : ts_test te _ = _ |- _ => rewrite E end. destruct (values_of de); [congruence|].
        match goal with E : check_valid_values _ _ = _ |- _ => rewrite E end. auto.
      + match goal with E : ts_test te _ = _ |- _ => rewrite E end. auto.
      + match goal with E : ts_test te _ = _ |- _ => rewrite E end. auto. }
  assert (G : o = Some v /\ e = map (EValue (path ++ [PI n])) er /\ match ret with VBool _ => v | x => x end = element_result te v).
  { assert (Z : type_call false te de v = (Some v, match ts_test te v with Valid w => w | _ => VNull end, er)).
    { unfold type_call, alone, er. destruct (ts_test te v) as [w| |]; reflexivity. }
    inversion A; subst; clear A; try contradiction;
      match goal with X : transform topo st = Some _ |- _ => rewrite T in X; injection X as <- end.
    - congruence.
    - match goal with X : alt_result _ _ _ _ = _ |- _ => unfold alt_result in X; rewrite Al in X; discriminate end.
    - match goal with X : alt_result _ _ _ _ = _ |- _ => unfold alt_result in X; rewrite Al in X; discriminate end.
    - match goal with X : types _ _ = Some ?u |- _ => rewrite Ty in X; injection X as <- end.
      match goal with X : type_call _ _ _ _ = _ |- _ => rewrite Z in X; injection X as <- <- <- end.
      split; [auto|split; [auto|]]. unfold element_result.
      match goal with X : truthy _ = false |- _ => rename X into F end.
      match goal with |- context [ts_test te ?y] => destruct (ts_test te y) as [w| |] end; auto. now rewrite F.
    - match goal with X : types _ _ = Some ?u |- _ => rewrite Ty in X; injection X as <- end.
      match goal with X : type_call _ _ _ _ = _ |- _ => rewrite Z in X; injection X as <- <- <- end.
      match goal with C : contents _ _ _ _ _ _ _ = _ |- _ => apply contents_inv in C; rename C into K end.
      destruct K as [[K _]|[[K _]|[[K _]|[_ [_ [-> [-> ->]]]]]]]; try congruence.
      split; [auto|split; [now rewrite app_nil_r|]]. unfold element_result.
      match goal with X : truthy _ = true |- _ => rename X into F end.
      match goal with |- context [ts_test te ?y] => destruct (ts_test te y) as [w| |] end; try discriminate. now rewrite F. }
  destruct G as [-> [-> R]]. split; [cbn [map]; now rewrite R|].
  intros z. rewrite in_app_iff, IE, in_map_iff. split.
  - intros [[x [<- X]]|[i [v1 [w [errs [x [X1 [X2 [X3 ->]]]]]]]]].
    + apply VD in X. destruct X as [w [errs [X1 X2]]]. exists 0%nat, v, w, errs, x. cbn [nth_error]. rewrite Nat.add_0_r. auto.
    + exists (S i), v1, w, errs, x. cbn [nth_error]. split; [auto|split; [auto|split; [auto|]]]. now rewrite Nat.add_succ_r.
  - intros [[|i] [v1 [w [errs [x [X1 [X2 [X3 ->]]]]]]]]; cbn [nth_error] in X1.
    + injection X1 as <-. left. exists x. rewrite Nat.add_0_r. split; [auto|]. apply VD. eauto.
    + right. exists i, v1, w, errs, x. split; [auto|split; [auto|split; [auto|]]]. now rewrite Nat.add_succ_r.
Qed.

(* C99: every element of a list is checked, numbered from one; elements are not converted, and a wrong element is replaced
   by nothing *)
Theorem list_elements_exact : forall fuel attributes enabled inside path l s st dt de t te o ret es,
  run fuel attributes enabled inside (CItem true path (VList l) s) = VOk (o, ret, es) ->
  list_of enabled attributes s st dt de t te -> ts_test t (VList l) = Valid (VList l) -> l <> [] ->
  o = Some (VList (map (element_result te) l)) /\
  forall e q, epath e = path ++ q -> q <> [] ->
  (In e es <-> exists i v w errs x, nth_error l i = Some v /\ verdict te (values_of de) v w errs /\ In x errs /\
     e = EValue (path ++ [PI (1 + i)]) x).
Proof.
  intros fuel attributes enabled inside path l s st dt de t te o ret es H [T [Nm [M [Al [Ld [St [Ty [Si Na]]]]]]]] Tl Nl.
  destruct fuel as [|fuel]; [discriminate|]. cbn [Valid_Model.run] in H. apply item_body_inv in H.
  assert (L : list_to_dict dt (VList l) = VList l) by (unfold list_to_dict; now rewrite Ld).
  assert (Z : exists er, type_call true t dt (VList l) = (Some (VList l), VList l, er)).
  { unfold type_call, in_parent, replaced. destruct (true_of dt); rewrite Tl; eauto. }
  destruct Z as [er Z].
  assert (Sn : s <> VNull) by (intros ->; discriminate).
  inversion H; subst; clear H; try contradiction;
    match goal with X : transform topo s = Some _ |- _ => rewrite T in X; injection X as <- end.
  - congruence.
  - match goal with X : alt_result _ _ _ _ = _ |- _ => unfold alt_result in X; rewrite Al in X; discriminate end.
  - match goal with X : alt_result _ _ _ _ = _ |- _ => unfold alt_result in X; rewrite Al in X; discriminate end.
  - match goal with X : types _ _ = Some ?u |- _ => rewrite Nm, Ty in X; injection X as <- end.
    match goal with X : type_call _ _ _ _ = _ |- _ => rewrite L, Z in X; injection X as <- <- <- end.
    destruct l; [congruence|discriminate].
  - match goal with X : types _ _ = Some ?u |- _ => rewrite Nm, Ty in X; injection X as <- end.
    match goal with X : type_call _ _ _ _ = _ |- _ => rewrite L, Z in X; injection X as <- <- <- end.
    match goal with C : contents _ _ _ _ _ _ _ = _ |- _ => apply contents_inv in C; rename C into K end.
    destruct K as [[K _]|[[_ [K _]]|[[_ [st0 [l0 [l' [ok [K1 [K2 [-> [-> K3]]]]]]]]]|[_ [K _]]]]]; try congruence.
    assert (st0 = st) as -> by congruence. injection K2 as <-.
    destruct (elements_simple _ _ _ _ _ _ _ _ _ _ _ _ _ Si Na K3) as [-> IE]. split; [auto|].
    intros x q P Nq. rewrite in_app_iff, <- IE. split; [|auto]. intros [X|X]; [|auto]. exfalso.
    apply in_map_iff in X. destruct X as [y [<- _]]. cbn [epath] in P. rewrite <- (app_nil_r path) in P at 1.
    apply app_inv_head in P. congruence.
Qed.

(* ---- False as a value ---- *)

(* C100: False given for an attribute that turns True into another value, with a type that has no value for False: the
   attribute is removed from the object while its attributes are being walked, which is a python exception *)
Theorem false_value_crash : forall fuel attributes enabled inside path data l ignored ns valid k s dt t x,
  valid_for attributes l ns valid -> is_name valid = false -> NoDup (dkeys data) ->
  dget k data = Some (VBool false) -> ~ ignored_key ignored k ->
  dget k (entries valid) = Some s -> simple enabled s dt t -> true_of dt = Some x -> ts_false t = None ->
  forall r, run fuel attributes enabled inside (CAttrs path (VDict data) l ignored) <> VOk r.
Proof.
  intros fuel attributes enabled inside path data l ignored ns valid k s dt t x V N U D G Ds S Tv Fv [[o ret] es] H.
  destruct (object_values_validated _ _ _ _ _ _ _ _ _ _ _ _ _ H V N U) as [d' [-> Q]].
  destruct (Q k _ s D Ds G) as [fuel' [w [r [e [R _]]]]]. clear Q H.
  pose proof (simple_not_null _ _ _ _ S) as Ns. destruct S as [T [M [Al [Ld [N1 [N2 Ty]]]]]].
  destruct fuel' as [|f]; [discriminate|]. cbn [Valid_Model.run] in R. apply item_body_inv in R.
  assert (Z : type_call true t dt (VBool false) = (None, VNull, [])).
  { unfold type_call, in_parent, replaced. now rewrite Tv, Fv. }
  inversion R; subst; clear R; try contradiction;
    match goal with X : transform topo s = Some _ |- _ => rewrite T in X; injection X as <- end.
  - congruence.
  - match goal with X : alt_result _ _ _ _ = _ |- _ => unfold alt_result in X; rewrite Al in X; discriminate end.
  - match goal with X : alt_result _ _ _ _ = _ |- _ => unfold alt_result in X; rewrite Al in X; discriminate end.
  - match goal with X : types _ _ = Some ?u |- _ => rewrite Ty in X; injection X as <- end.
    match goal with X : type_call _ _ _ _ = _ |- _ => cbn [list_to_dict] in X; rewrite Z in X; discriminate end.
  - match goal with X : types _ _ = Some ?u |- _ => rewrite Ty in X; injection X as <- end.
    match goal with X : type_call _ _ _ _ = _ |- _ => cbn [list_to_dict] in X; rewrite Z in X; injection X as <- <- <- end. discriminate.
Qed.

(* ---- fuel ---- *)

Definition rle {A} (r1 r2 : vres A) : Prop := r1 = VFuel \/ r1 = r2.

Lemma rle_refl : forall A (r : vres A), rle r r.
Proof. intros A r. now right. Qed.

Lemma bind_le : forall A B (r1 r2 : vres A) (g1 g2 : A -> vres B), rle r1 r2 -> (forall a, rle (g1 a) (g2 a)) ->
  rle (bind r1 g1) (bind r2 g2).
Proof.
  intros A B r1 r2 g1 g2 [->| ->] G; [now left|]. destruct r2; cbn [bind]; auto; now right.
Qed.

Lemma each_le : forall S (g1 g2 : string -> S -> vres (S * list verr)), (forall k s, rle (g1 k s) (g2 k s)) ->
  forall ks s, rle (each g1 ks s) (each g2 ks s).
Proof.
  intros S g1 g2 G. induction ks as [|k r IH]; intros s; cbn [each]; [now right|].
  apply bind_le; [auto|]. intros [s1 e1]. apply bind_le; [auto|]. intros [s2 e2]. now right.
Qed.

Lemma at_key_le : forall (g1 g2 : val -> vres ires) k d, (forall v, rle (g1 v) (g2 v)) -> rle (at_key g1 k d) (at_key g2 k d).
Proof.
  intros g1 g2 k d G. unfold at_key. destruct (dget k d); [|now right]. apply bind_le; [auto|]. intros [[o r] e]. now right.
Qed.

Lemma dictionary_le : forall (i1 i2 : list pstep -> val -> val -> vres ires) (a1 a2 : list pstep -> val -> string -> vres ires) A path d dt,
  (forall q v s, rle (i1 q v s) (i2 q v s)) -> (forall q v n, rle (a1 q v n) (a2 q v n)) ->
  rle (dictionary types i1 a1 A path d dt) (dictionary types i2 a2 A path d dt).
Proof.
  intros i1 i2 a1 a2 A path d dt I Q. unfold dictionary. apply bind_le; [apply rle_refl|]. intros [ok0 e0].
  apply bind_le.
  - destruct (dget "_subtype" dt) as [st|]; [|apply rle_refl]. apply each_le. intros k [x ok]. apply bind_le.
    + apply at_key_le. intros v. destruct st; auto. destruct (dmem s A); auto.
    + intros [[d1 r] e]. apply rle_refl.
  - intros [[d1 ok1] e1]. destruct (dget "_keys" dt) as [ks|]; [|apply rle_refl]. apply bind_le.
    + apply each_le. intros k [x ok]. destruct (dget k (entries ks)); [|apply rle_refl]. apply bind_le; [apply at_key_le; auto|].
      intros [[d2 r] e]. apply rle_refl.
    + intros [[d2 ok2] e2]. apply rle_refl.
Qed.

Lemma elements_le : forall (i1 i2 : list pstep -> val -> val -> vres ires) (a1 a2 : list pstep -> val -> string -> vres ires) A path st l n,
  (forall q v s, rle (i1 q v s) (i2 q v s)) -> (forall q v n, rle (a1 q v n) (a2 q v n)) ->
  rle (elements i1 a1 A path st n l) (elements i2 a2 A path st n l).
Proof.
  intros i1 i2 a1 a2 A path st l. induction l as [|v r IH]; intros n I Q; cbn [elements]; [apply rle_refl|].
  apply bind_le.
  - destruct st as [| | |t| |]; auto. destruct (dmem t A); auto. apply bind_le; [auto|]. intros [[o x] e]. apply rle_refl.
  - intros [[o ret] e]. apply bind_le; [auto|]. intros [[r' ok] es]. apply rle_refl.
Qed.

Lemma run_le : forall fuel attributes enabled inside c,
  rle (run fuel attributes enabled inside c) (run (S fuel) attributes enabled inside c).
Proof.
  induction fuel as [|fuel IH]; intros attributes enabled inside c; [now left|].
  remember (S fuel) as m eqn:Em. rewrite Em at 1. destruct c as [p path v s|path v l ignored]; cbn [Valid_Model.run].
  - unfold item_body. destruct s; try apply rle_refl.
    all: destruct (transform topo _) as [dt|]; [|apply rle_refl].
    all: destruct (missing_modules enabled dt); [|apply rle_refl].
    all: cbv zeta; destruct (alt_result types dt (name_of dt) (if p then list_to_dict dt v else v)) as [[w|]|]; try apply rle_refl.
    all: destruct (types (name_of dt) (params dt)) as [t|]; [|apply rle_refl].
    all: destruct (type_call p t dt (if p then list_to_dict dt v else v)) as [[o ret] es].
    all: destruct (truthy ret); [|apply rle_refl].
    all: (apply bind_le; [|intros [[o' r'] e]; apply rle_refl]); unfold contents.
    all: destruct (String.eqb (name_of dt) "dict");
      [destruct o as [[| | | | |dd]|]; try apply rle_refl; (apply bind_le; [|intros [[d' ok] e]; apply rle_refl]);
       apply dictionary_le; intros; apply IH|].
    all: destruct (String.eqb (name_of dt) "list"); [|apply rle_refl].
    all: destruct (dget "_subtype" dt); [|apply rle_refl].
    all: destruct o as [[| | | |x|]|]; try apply rle_refl; (apply bind_le; [|intros [[d' ok] e]; apply rle_refl]);
       apply elements_le; intros; apply IH.
  - unfold attrs_body. destruct (get_attribute_namespaces attributes l) as [ns|]; [|apply rle_refl].
    destruct (get_valid_attributes attributes ns) as [valid|]; [|apply rle_refl].
    assert (G : rle (match v with
          | VNull => VOk (Some v, VDict [], [])
          | VDict data =>
              bind (each (attr_step mattrs mods (fun p path v s => run fuel attributes enabled inside (CItem p path v s))
                 (fun k path v ns => run fuel (mattrs k) enabled true (CAttrs path v ns ["_"])) attributes enabled inside path ns ignored (entries valid)) (dkeys data) data)
                (fun '(d', e) =>
                   VOk (Some (VDict d'), VNull,
                        check_required path data (entries valid) ++ check_valid_with path data (entries valid) ++ e))
          | _ => VOk (Some v, VNull, [ENotDict path])
          end) (match v with
          | VNull => VOk (Some v, VDict [], [])
          | VDict data =>
              bind (each (attr_step mattrs mods (fun p path v s => run m attributes enabled inside (CItem p path v s))
                 (fun k path v ns => run m (mattrs k) enabled true (CAttrs path v ns ["_"])) attributes enabled inside path ns ignored (entries valid)) (dkeys data) data)
                (fun '(d', e) =>
                   VOk (Some (VDict d'), VNull,
                        check_required path data (entries valid) ++ check_valid_with path data (entries valid) ++ e))
          | _ => VOk (Some v, VNull, [ENotDict path])
          end)).
    { destruct v; try apply rle_refl. apply bind_le; [|intros [d' e]; apply rle_refl]. apply each_le. intros k s. unfold attr_step.
      destruct (existsb (fun i => starts_with i k) ignored); [apply rle_refl|].
      destruct (dget k (entries valid)).
      - apply bind_le; [|intros [[d1 r] e]; apply rle_refl]. apply at_key_le. intros. subst m. apply IH.
      - destruct (memS k enabled && negb inside); [|apply rle_refl]. destruct (dget k s) as [x|]; [|apply rle_refl].
        match goal with |- rle (if ?b then _ else _) _ => destruct b end; [apply rle_refl|].
        apply bind_le; [subst m; apply IH|]. intros [[o r] e]. apply rle_refl. }
    destruct valid; try exact G. apply rle_refl.
Qed.

(* C100: the result does not depend on the amount of fuel *)
Theorem validation_fuel : forall n m attributes enabled inside c r,
  run n attributes enabled inside c = r -> r <> VFuel -> n <= m -> run m attributes enabled inside c = r.
Proof.
  intros n m attributes enabled inside c r H N L. induction L as [|m L IH]; [auto|].
  destruct (run_le m attributes enabled inside c) as [E|E]; congruence.
Qed.

(* ---- termination ---- *)

(* how deeply a value is nested; empty lists and dictionaries are not *)
Fixpoint depth (v : val) : nat :=
  match v with
  | VList l => (fix go (l : list val) : nat := match l with [] => 0 | x :: r => Nat.max (S (depth x)) (go r) end) l
  | VDict d => (fix go (d : dict val) : nat := match d with [] => 0 | (_, x) :: r => Nat.max (S (depth x)) (go r) end) d
  | _ => 0
  end.

Definition is_list (v : val) : bool := match v with VList _ => true | _ => false end.

(* the keys of every dictionary are unique *)
Inductive uniq : val -> Prop :=
| U_list : forall l, (forall x, In x l -> uniq x) -> uniq (VList l)
| U_dict : forall d, NoDup (dkeys d) -> (forall k x, In (k, x) d -> uniq x) -> uniq (VDict d)
| U_leaf : forall v, is_list v = false -> is_dict v = false -> uniq v.

Definition plain (v : val) : Prop := depth v = 0 /\ uniq v.

(* a type leaves a value as it is nested, or makes a list with one element *)
Definition tame (t : tspec) : Prop :=
  (forall v w, uniq v -> ts_test t v = Valid w ->
     uniq w /\ (depth w <= depth v \/ exists x, w = VList [x] /\ depth x <= depth v)) /\
  (forall x, ts_empty t = Some x -> plain x) /\ (forall x, ts_false t = Some x -> plain x).

(* a set of attribute definitions: with a definition it has the definitions of the contents, the types are tame and the
   values replacing True or the elements of a list are plain *)
Definition closed (defs : val -> Prop) : Prop := forall s dt, defs s -> transform topo s = Some dt ->
  (forall x, true_of dt = Some x -> plain x) /\ (forall x, dget "_list_to_dict" dt = Some x -> plain x) /\
  (forall ks k s1, dget "_keys" dt = Some ks -> dget k (entries ks) = Some s1 -> defs s1) /\
  (forall st, dget "_subtype" dt = Some st -> defs st) /\
  (dget "_subtype" dt = None \/ dget "_keys" dt = None) /\
  (forall t, types (name_of dt) (params dt) = Some t -> tame t).

(* all attributes of all objects have definitions from the set *)
Definition covers (defs : val -> Prop) (attributes : dict val) : Prop :=
  forall l ns valid k s, valid_for attributes l ns valid -> dget k (entries valid) = Some s -> defs s.

Lemma depth_list : forall x l, In x l -> depth x < depth (VList l).
Proof.
  intros x l I. cbn [depth]. induction l as [|y r IH]; [contradiction|]. destruct I as [->|I].
  - apply Nat.lt_le_trans with (S (depth x)); [lia|apply Nat.le_max_l].
  - apply Nat.lt_le_trans with (1 := IH I). apply Nat.le_max_r.
Qed.

Lemma depth_dict : forall k x d, In (k, x) d -> depth x < depth (VDict d).
Proof.
  intros k x d I. cbn [depth]. induction d as [|[k0 y] r IH]; [contradiction|]. destruct I as [E|I].
  - injection E as _ ->. apply Nat.lt_le_trans with (S (depth x)); [lia|apply Nat.le_max_l].
  - apply Nat.lt_le_trans with (1 := IH I). apply Nat.le_max_r.
Qed.

Lemma depth_dict_le : forall d n, (forall k x, In (k, x) d -> depth x < n) -> depth (VDict d) <= n.
Proof.
  intros d n H. cbn [depth]. induction d as [|[k x] r IH]; [lia|]. apply Nat.max_lub.
  - specialize (H k x (or_introl eq_refl)). lia.
  - apply IH. intros k1 x1 I. apply (H k1). now right.
Qed.

Lemma uniq_list : forall l x, uniq (VList l) -> In x l -> uniq x.
Proof. intros l x U I. inversion U; subst; [auto|discriminate]. Qed.

Lemma uniq_dict : forall d, uniq (VDict d) -> NoDup (dkeys d) /\ forall k x, dget k d = Some x -> uniq x.
Proof.
  intros d U. inversion U; subst; [|discriminate]. split; [auto|]. intros k x D. apply dget_In in D. eauto.
Qed.

Lemma fold_dset_const : forall (c : val) ks d k x, In (k, x) (fold_left (fun d k => dset k c d) ks d) -> x = c \/ exists k0, In (k0, x) d.
Proof.
  induction ks as [|k0 r IH]; intros d k x I; cbn [fold_left] in I; [eauto|].
  destruct (IH _ _ _ I) as [->|[k1 I1]]; [auto|].
  assert (G : forall d, In (k1, x) (dset k0 c d) -> x = c \/ exists k, In (k, x) d).
  { clear. induction d as [|[a b] r IH]; cbn [dset]; intros I.
    - destruct I as [E|[]]. injection E as _ <-. auto.
    - destruct (String.eqb k0 a); destruct I as [E|I].
      + injection E as _ <-. auto.
      + right. exists k1. now right.
      + injection E as <- <-. right. exists a. now left.
      + destruct (IH I) as [->|[k I2]]; [auto|]. right. exists k. now right. }
  auto.
Qed.

Lemma fold_dset_NoDup : forall (c : val) ks d, NoDup (dkeys d) -> NoDup (dkeys (fold_left (fun d k => dset k c d) ks d)).
Proof. induction ks as [|k r IH]; intros d N; cbn [fold_left]; [auto|]. apply IH. now apply NoDup_dset. Qed.

Lemma list_to_dict_tame : forall dt v, uniq v -> (forall x, dget "_list_to_dict" dt = Some x -> plain x) ->
  uniq (list_to_dict dt v) /\ depth (list_to_dict dt v) <= depth v.
Proof.
  intros dt v U H. unfold list_to_dict. destruct v as [| | | |l|]; auto. destruct (dget "_list_to_dict" dt) as [c|]; [|auto].
  destruct (H c eq_refl) as [D Uc].
  assert (V : forall k x, In (k, x) (fold_left (fun d k => dset k c d) (flat_map str_of l) []) -> x = c).
  { intros k x I. destruct (fold_dset_const _ _ _ _ _ I) as [->|[k0 []]]. auto. }
  split.
  - apply U_dict; [apply fold_dset_NoDup; constructor|]. intros k x I. now rewrite (V k x I).
  - destruct l as [|y l]; [cbn; lia|]. apply Nat.le_trans with 1.
    + apply depth_dict_le. intros k x I. rewrite (V k x I), D. lia.
    + assert (X : depth y < depth (VList (y :: l))) by (apply depth_list; now left). lia.
Qed.

Lemma replaced_tame : forall t create tv v x, uniq v -> tame t -> (forall y, tv = Some y -> plain y) ->
  replaced t create tv v = Some x -> uniq x /\ depth x <= depth v.
Proof.
  intros t create tv v x U [_ [Te Tf]] Tt R. unfold replaced in R.
  assert (P : forall y z, plain y -> uniq y /\ depth y <= depth z) by (intros y z [P1 P2]; split; [auto|lia]).
  assert (B : forall b, uniq (VBool b)) by (intros b; apply U_leaf; reflexivity).
  destruct v as [|b|z|s|l|d].
  - destruct (ts_empty t) as [e|].
    + destruct create.
      * specialize (Te e eq_refl). destruct e as [|[]| | | |]; destruct tv as [y|]; try (injection R as <-); auto.
      * destruct tv; injection R as <-; auto.
    + destruct tv; injection R as <-; auto.
  - destruct b; destruct tv as [y|]; try (injection R as <-); auto.
  - destruct tv; injection R as <-; auto.
  - destruct tv; injection R as <-; auto.
  - destruct tv; injection R as <-; auto.
  - destruct tv; injection R as <-; auto.
Qed.

(* what the contents of an item are *)
Lemma type_call_tame : forall p t dt v o ret es, uniq v -> tame t -> (forall y, true_of dt = Some y -> plain y) ->
  type_call p t dt v = (o, ret, es) -> truthy ret = true ->
  exists w, o = Some w /\ uniq w /\ (depth w <= depth v \/ (p = true /\ exists x, w = VList [x] /\ depth x <= depth v)).
Proof.
  intros p t dt v o ret es U T Tt H Tr. unfold type_call in H. destruct p.
  - unfold in_parent in H.
    destruct (replaced t (create_of (name_of dt) dt) (true_of dt) v) as [x|] eqn:R; [|injection H as <- <- <-; discriminate].
    destruct (replaced_tame _ _ _ _ _ U T Tt R) as [Ux Dx]. destruct T as [T _].
    destruct (ts_test t x) as [w| |] eqn:E; injection H as <- <- <-; try discriminate.
    destruct (T x w Ux E) as [Uw [L|[y [-> L]]]].
    + exists w. split; [auto|split; [auto|left; lia]].
    + exists (VList [y]). split; [auto|split; [auto|right]]. split; [auto|]. exists y. split; [auto|lia].
  - injection H as <- <- <-. exists v. auto.
Qed.

Lemma bind_nf : forall A B (r : vres A) (g : A -> vres B), r <> VFuel -> (forall a, r = VOk a -> g a <> VFuel) -> bind r g <> VFuel.
Proof. intros A B r g R G. destruct r; cbn [bind]; auto; discriminate. Qed.

Lemma each_nf : forall S (proj : S -> dict val) (g : string -> S -> vres (S * list verr)) data ks s, NoDup ks ->
  (forall k, In k ks -> dget k (proj s) = dget k data) ->
  (forall k s, In k ks -> dget k (proj s) = dget k data -> g k s <> VFuel) ->
  (forall k s s' e, g k s = VOk (s', e) -> forall k', k' <> k -> dget k' (proj s') = dget k' (proj s)) ->
  each g ks s <> VFuel.
Proof.
  intros S proj g data. induction ks as [|k r IH]; intros s N I G P; cbn [each]; [discriminate|]. inversion N; subst.
  apply bind_nf; [apply G; [now left|apply I; now left]|]. intros [s1 e1] E. apply bind_nf.
  - apply IH; auto.
    + intros k1 I1. rewrite (P _ _ _ _ E) by (intros ->; contradiction). apply I. now right.
    + intros k1 s2 I1. apply G. now right.
  - intros [s2 e2] _. discriminate.
Qed.

Lemma at_key_nf : forall g k d, (forall v, dget k d = Some v -> g v <> VFuel) -> at_key g k d <> VFuel.
Proof.
  intros g k d G. unfold at_key. destruct (dget k d) as [v|]; [|discriminate]. apply bind_nf; [auto|].
  intros [[[w|] r] e] _; discriminate.
Qed.

Lemma at_key_other : forall g k d d' r e, at_key g k d = VOk (d', r, e) -> forall k', k' <> k -> dget k' d' = dget k' d.
Proof.
  intros g k d d' r e H k' N. unfold at_key in H. destruct (dget k d) as [v|]; [|now injection H as <-].
  destruct (g v) as [[[[w|] r0] e0]| | |]; cbn [bind] in H; try discriminate. injection H as <- _ _. now apply dget_dset_other.
Qed.

Lemma dictionary_nf : forall (it : list pstep -> val -> val -> vres ires) at_ A path d dt, NoDup (dkeys d) ->
  (dget "_subtype" dt = None \/ dget "_keys" dt = None) ->
  (forall st q v, dget "_subtype" dt = Some st -> (exists k, dget k d = Some v) -> it q v st <> VFuel) ->
  (forall n q v, (exists k, dget k d = Some v) -> at_ q v n <> VFuel) ->
  (forall ks k s q v, dget "_keys" dt = Some ks -> dget k (entries ks) = Some s -> (exists k, dget k d = Some v) -> it q v s <> VFuel) ->
  dictionary types it at_ A path d dt <> VFuel.
Proof.
  intros it at_ A path d dt U SK H1 H2 H3. unfold dictionary. apply bind_nf.
  { destruct (dget "_keytype" dt) as [[| | |n| |]|]; try discriminate. destruct (types n []); discriminate. }
  intros [ok0 e0] _. apply bind_nf.
  { destruct (dget "_subtype" dt) as [st|]; [|discriminate].
    apply each_nf with (proj := fst) (data := d); auto.
    - intros k [x ok] I E. cbn [fst] in E. apply bind_nf; [|intros [[d1 r] e] _; discriminate].
      apply at_key_nf. intros v D. rewrite E in D.
      destruct st as [| | |n| |]; try (eapply H1; eauto). destruct (dmem n A); [eapply H2; eauto|eapply H1; eauto].
    - intros k [x ok] [x' ok'] e G k' N. cbn [fst].
      match type of G with bind ?X _ = _ => destruct X as [[[y r] f]| | |] eqn:Q end; cbn [bind] in G; try discriminate.
      injection G as <- _ _. eapply at_key_other; eauto. }
  intros [[d1 ok1] e1] S1. destruct (dget "_keys" dt) as [ks|]; [|discriminate].
  destruct SK as [SK|SK]; [|discriminate]. rewrite SK in S1. injection S1 as <- _ _.
  apply bind_nf; [|intros [[d2 [|]] e2] _; discriminate].
  apply each_nf with (proj := fst) (data := d); auto.
  - intros k [x ok] I E. cbn [fst] in E. destruct (dget k (entries ks)) as [s|] eqn:K; [|discriminate].
    apply bind_nf; [|intros [[d2 r] e] _; discriminate]. apply at_key_nf. intros v D. rewrite E in D. eapply H3; eauto.
  - intros k [x ok] [x' ok'] e G k' N. cbn [fst]. destruct (dget k (entries ks)) as [s|]; [|injection G as <- _ _; auto].
    match type of G with bind ?X _ = _ => destruct X as [[[y r] f]| | |] eqn:Q end; cbn [bind] in G; try discriminate.
    injection G as <- _ _. eapply at_key_other; eauto.
Qed.

Lemma elements_nf : forall (it : list pstep -> val -> val -> vres ires) at_ A path st l n,
  (forall q v, In v l -> it q v st <> VFuel) -> (forall q v n, In v l -> at_ q v n <> VFuel) ->
  elements it at_ A path st n l <> VFuel.
Proof.
  intros it at_ A path st l. induction l as [|v r IH]; intros n H1 H2; cbn [elements]; [discriminate|].
  apply bind_nf.
  - destruct st as [| | |t| |]; try (apply H1; now left). destruct (dmem t A); [|apply H1; now left].
    apply bind_nf; [apply H2; now left|]. intros [[o x] e] _. discriminate.
  - intros [[o ret] e] _. apply bind_nf; [apply IH; [intros q v1 I; apply H1|intros q v1 n1 I; apply H2]; now right|].
    intros [[r' ok] es] _. discriminate.
Qed.

Definition size_of (c : call) : nat :=
  match c with CItem p _ v _ => 2 * depth v + (if p then 1 else 0) | CAttrs _ v _ _ => 2 * depth v end.

(* C100: validation ends: as many nested calls as the data are deep, twice *)
Theorem validation_terminates : forall defs, closed defs -> (forall m, covers defs (mattrs m)) ->
  forall fuel attributes enabled inside c, covers defs attributes ->
  match c with CItem _ _ v s => uniq v /\ defs s | CAttrs _ v _ _ => uniq v end ->
  size_of c < fuel -> run fuel attributes enabled inside c <> VFuel.
Proof.
  intros defs Cl Cm. induction fuel as [|fuel IH]; intros attributes enabled inside c Ca G L; [lia|].
  destruct c as [p path v s|path v l ignored]; cbn [Valid_Model.run].
  - destruct G as [U Ds]. cbn [size_of] in L. unfold item_body.
    assert (B : forall dt, transform topo s = Some dt ->
      match missing_modules enabled dt with
          | (_ :: _) as ms => VOk (Some v, VBool false, map (ERequires path) ms)
          | [] =>
              let v1 := if p then list_to_dict dt v else v in
              match alt_result types dt (name_of dt) v1 with
              | Some None => VOk (Some v1, VBool true, [])
              | Some (Some w) =>
                  if truthy w then VOk (Some (if p then w else v1), w, []) else VOk (Some v1, VBool true, [])
              | None =>
                  match types (name_of dt) (params dt) with
                  | None => VFatal
                  | Some t =>
                      let '(o, ret, es) := type_call p t dt v1 in
                      if truthy ret then
                        bind (contents types (fun p path v s => run fuel attributes enabled inside (CItem p path v s))
                                (fun path v n => run fuel attributes enabled inside (CAttrs path v [n] ["_"])) attributes path dt o)
                          (fun '(o', ret', e) => VOk (o', ret', map (EValue path) es ++ e))
                      else VOk (o, ret, map (EValue path) es)
                  end
              end
          end <> VFuel).
    { intros dt T. destruct (Cl s dt Ds T) as [C1 [C2 [C3 [C4 [C5 C6]]]]].
      destruct (missing_modules enabled dt); [|discriminate]. cbv zeta.
      assert (V1 : uniq (if p then list_to_dict dt v else v) /\ depth (if p then list_to_dict dt v else v) <= depth v).
      { destruct p; [now apply list_to_dict_tame|auto]. }
      destruct V1 as [U1 D1]. set (v1 := if p then list_to_dict dt v else v) in *. clearbody v1.
      destruct (alt_result types dt (name_of dt) v1) as [[w|]|]; [destruct (truthy w); discriminate|discriminate|].
      destruct (types (name_of dt) (params dt)) as [t|]; [|discriminate]. specialize (C6 t eq_refl).
      destruct (type_call p t dt v1) as [[o ret] es] eqn:TC. destruct (truthy ret) eqn:Tr; [|discriminate].
      apply bind_nf; [|intros [[o' r'] e] _; discriminate].
      destruct (type_call_tame _ _ _ _ _ _ _ U1 C6 C1 TC Tr) as [w [-> [Uw Dw]]]. unfold contents.
      destruct (String.eqb (name_of dt) "dict").
      - destruct w as [| | | | |d]; try discriminate. apply bind_nf; [|intros [[d' ok] e] _; discriminate].
        assert (Dd : depth (VDict d) <= depth v) by (destruct Dw as [Dw|[_ [x [Dw _]]]]; [lia|discriminate]).
        destruct (uniq_dict _ Uw) as [Ud Ux].
        assert (Q : forall x, (exists k, dget k d = Some x) -> uniq x /\ depth x < depth v).
        { intros x [k D]. split; [eauto|]. apply dget_In in D. apply depth_dict in D. lia. }
        apply dictionary_nf; auto.
        + intros st q x St X. destruct (Q x X) as [Q1 Q2]. apply IH; [auto|split; eauto|cbn [size_of]; destruct p; lia].
        + intros n q x X. destruct (Q x X) as [Q1 Q2]. apply IH; [auto|auto|cbn [size_of]; destruct p; lia].
        + intros ks k s1 q x Ks Kd X. destruct (Q x X) as [Q1 Q2]. apply IH; [auto|split; eauto|cbn [size_of]; destruct p; lia].
      - destruct (String.eqb (name_of dt) "list"); [|discriminate].
        destruct (dget "_subtype" dt) as [st|]; [|discriminate].
        destruct w as [| | | |x|]; try discriminate. apply bind_nf; [|intros [[d' ok] e] _; discriminate].
        assert (Q : forall y, In y x -> uniq y /\ 2 * depth y < fuel).
        { intros y Y. split; [eapply uniq_list; eauto|]. destruct Dw as [Dw|[-> [z [Dw1 Dw2]]]].
          - apply depth_list in Y. destruct p; lia.
          - injection Dw1 as ->. destruct Y as [<-|[]]. lia. }
        apply elements_nf.
        + intros q y Y. destruct (Q y Y) as [Q1 Q2]. apply IH; [auto|split; auto|cbn [size_of]; lia].
        + intros q y n Y. destruct (Q y Y) as [Q1 Q2]. apply IH; [auto|auto|cbn [size_of]; lia]. }
    destruct s; try discriminate; destruct (transform topo _) as [dt|] eqn:T; try discriminate; apply B; auto.
  - cbn [size_of] in L. unfold attrs_body.
    destruct (get_attribute_namespaces attributes l) as [ns|] eqn:G1; [|discriminate].
    destruct (get_valid_attributes attributes ns) as [valid|] eqn:G2; [|discriminate].
    assert (B : forall data, v = VDict data ->
      bind (each (attr_step mattrs mods (fun p path v s => run fuel attributes enabled inside (CItem p path v s))
                 (fun k path v ns => run fuel (mattrs k) enabled true (CAttrs path v ns ["_"])) attributes enabled inside path ns ignored (entries valid)) (dkeys data) data)
                (fun '(d', e) =>
                   VOk (Some (VDict d'), VNull,
                        check_required path data (entries valid) ++ check_valid_with path data (entries valid) ++ e)) <> VFuel).
    { intros data ->. apply bind_nf; [|intros [d' e] _; discriminate]. destruct (uniq_dict _ G) as [Ud Ux].
      apply each_nf with (proj := fun d => d) (data := data); auto.
      - intros k d I E. unfold attr_step. destruct (existsb (fun i => starts_with i k) ignored); [discriminate|].
        destruct (dget k (entries valid)) as [s|] eqn:Ds.
        + apply bind_nf; [|intros [[d1 r] e] _; discriminate]. apply at_key_nf. intros x D. rewrite E in D.
          apply IH; [auto|split; [eauto|]|].
          * eapply Ca; [split; eauto|eauto].
          * apply dget_In in D. apply depth_dict in D. cbn [size_of]. lia.
        + destruct (memS k enabled && negb inside).
          * rewrite E. destruct (dget k data) as [x|] eqn:D; [|discriminate].
            match goal with |- (if ?b then _ else _) <> _ => destruct b end; [discriminate|].
            apply bind_nf; [|intros [[o r] e] _; discriminate]. apply IH; [auto|eauto|].
            apply dget_In in D. apply depth_dict in D. cbn [size_of]. lia.
          * destruct (memS k mods && negb inside); discriminate.
      - intros k d d' e S k' N. unfold attr_step in S.
        destruct (existsb (fun i => starts_with i k) ignored); [now injection S as <- _|].
        destruct (dget k (entries valid)) as [s|].
        + match type of S with bind ?X _ = _ => destruct X as [[[y r] f]| | |] eqn:Q end; cbn [bind] in S; try discriminate.
          injection S as <- _. eapply at_key_other; eauto.
        + destruct (memS k enabled && negb inside).
          * destruct (dget k d) as [x|]; [|now injection S as <- _].
            match type of S with (if ?b then _ else _) = _ => destruct b end; [now injection S as <- _|].
            match type of S with bind ?X _ = _ => destruct X as [[[y r] f]| | |] eqn:Q end; cbn [bind] in S; try discriminate.
            injection S as <- _. now apply dget_dset_other.
          * destruct (memS k mods && negb inside); injection S as <- _; auto. }
    destruct valid as [| | |t| |]; try (destruct v as [| | | | |data]; try discriminate; apply B; reflexivity).
    destruct (types t []); discriminate.
Qed.
End Values.

(* ---- what validation does not notice, and when it fails ---- *)

(* C96: an empty dictionary is accepted although the definition requires a key *)
Theorem empty_dictionary_refuted : exists s dt ks k,
  plain_dict [] [] s dt ks /\ (exists sk, In (k, sk) ks /\ required sk = true) /\
  run [] std_types no_modules [] 3 [] [] false (CItem true [] (VDict []) s) = VOk (Some (VDict []), VDict [], []).
Proof.
  exists (VDict [("vni", VDict [("type", VStr "int"); ("_required", VBool true)])]). do 2 eexists. exists "vni".
  split; [repeat split; reflexivity|]. split; [eexists; split; [now left|reflexivity]|reflexivity].
Qed.

(* C96: a module without attributes becomes an empty dictionary, its required attributes are not checked *)
Theorem empty_module_refuted : exists mattrs attributes m k,
  (exists d sk, dget "node" (mattrs m) = Some (VDict d) /\ In (k, sk) d /\ required sk = true) /\
  run [] std_types mattrs [m] 3 attributes [m] false (CAttrs [] (VDict [(m, VNull)]) ["node"] ["_"])
    = VOk (Some (VDict [(m, VDict [])]), VNull, []).
Proof.
  exists (fun _ => [("node", VDict [("as", VDict [("type", VStr "int"); ("_required", VBool true)])])]),
    [("node", VDict [])], "bgp", "as".
  split; [do 2 eexists; split; [reflexivity|split; [now left|reflexivity]]|reflexivity].
Qed.

(* C96: a key that is converted into zero makes the check for missing keys disappear *)
Theorem zero_key_refuted : exists s d k,
  (exists ks sk, transform [] s = Some ks /\ dget "_keys" ks = Some (VDict [("0", VStr "int"); (k, sk)]) /\ required sk = true) /\
  ~ In k (dkeys d) /\
  run [] std_types no_modules [] 3 [] [] false (CItem true [] (VDict d) s) = VOk (Some (VDict d), VBool false, []).
Proof.
  exists (VDict [("_keytype", VStr "int"); ("0", VStr "int"); ("1", VDict [("type", VStr "int"); ("_required", VBool true)])]),
    [("0", VInt 5)], "1".
  split; [do 2 eexists; split; [reflexivity|split; [reflexivity|reflexivity]]|].
  split; [intros [E|[]]; discriminate|reflexivity].
Qed.

(* C100: validation does not end when an attribute turns True into a value that contains True for the same attribute *)
Theorem validation_terminates_refuted : exists topo s v, uniq v /\ depth v = 0 /\
  forall fuel path, run topo std_types no_modules [] fuel [] [] false (CItem true path v s) = VFuel.
Proof.
  exists [("loop", VDict [("type", VStr "dict"); ("true_value", VDict [("a", VBool true)]); ("_keys", VDict [("a", VStr "loop")])])],
    (VStr "loop"), (VBool true).
  split; [now apply U_leaf|split; [reflexivity|]]. induction fuel as [|fuel IH]; intros path; [reflexivity|].
  cbn [Valid_Model.run]. cbn -[Valid_Model.run]. rewrite IH. reflexivity.
Qed.

(* ---- concrete cases ---- *)

Definition gtsm_attributes : dict val :=
  [("node", VDict [("gtsm", VDict [("type", VStr "int"); ("true_value", VInt 1)]); ("mtu", VStr "int");
                   ("tags", VDict [("type", VStr "list"); ("_subtype", VStr "int")]);
                   ("role", VDict [("type", VStr "str"); ("valid_values", VList [VStr "host"; VStr "router"])])])].

Definition val_run (fuel : nat) (d : dict val) : vres ires :=
  run [] std_types no_modules [] fuel gtsm_attributes [] false (CAttrs [PK "n"] (VDict d) ["node"] ["_"]).

Example ex_values : val_run 5 [("mtu", VStr "1500"); ("gtsm", VBool true); ("role", VStr "bridge"); ("tags", VList [VStr "5"; VStr "0"; VStr "x"])]
  = VOk (Some (VDict [("mtu", VInt 1500); ("gtsm", VInt 1); ("role", VStr "bridge"); ("tags", VList [VStr "5"; VInt 0; VNull])]), VNull,
         [EValue [PK "n"; PK "role"] InvalidValue; EValue [PK "n"; PK "tags"; PI 3] WrongType]).
Proof. reflexivity. Qed.

Example ex_false_crash : val_run 5 [("gtsm", VBool false)] = VCrash.
Proof. reflexivity. Qed.

Example ex_simple : exists dt t, simple [] std_types [] (VDict [("type", VStr "int"); ("true_value", VInt 1)]) dt t /\
  true_of dt = Some (VInt 1) /\ ts_false t = None.
Proof.
  do 2 eexists. unfold simple. split.
  - split; [reflexivity|split; [reflexivity|split; [reflexivity|split; [reflexivity|split; [discriminate|split; [discriminate|reflexivity]]]]]].
  - split; reflexivity.
Qed.

Example ex_list_of : exists dt de t te,
  list_of [] std_types [] gtsm_attributes (VDict [("type", VStr "list"); ("_subtype", VStr "int")]) (VStr "int") dt de t te /\
  ts_test t (VList [VStr "5"]) = Valid (VList [VStr "5"]) /\ element_result te (VStr "5") = VStr "5" /\ element_result te (VStr "x") = VNull.
Proof.
  do 4 eexists. unfold list_of, simple. split.
  - split; [reflexivity|split; [reflexivity|split; [reflexivity|split; [reflexivity|split; [reflexivity|split; [reflexivity|split; [reflexivity|split]]]]]]].
    + split; [reflexivity|split; [reflexivity|split; [reflexivity|split; [reflexivity|split; [discriminate|split; [discriminate|reflexivity]]]]]].
    + intros n E. injection E as <-. intros [X|[]]. discriminate.
  - split; [reflexivity|split; reflexivity].
Qed.

(* the types used here are tame, so validation with these attributes ends *)
Lemma std_tame : forall n ps t, std_types n ps = Some t -> tame t.
Proof.
  intros n ps t H. unfold std_types in H.
  assert (LF : forall v, is_list v = false -> is_dict v = false -> uniq v /\ depth v = 0).
  { intros v A B. split; [now apply U_leaf|]. destruct v; auto; discriminate. }
  assert (PL : plain (VList [])) by (split; [reflexivity|apply U_list; intros x []]).
  assert (PD : plain (VDict [])) by (split; [reflexivity|apply U_dict; [constructor|intros k x []]]).
  destruct (String.eqb n "int"); [injection H as <-; split; [|split; discriminate]|].
  { intros v w U T. cbn [ts_test] in T.
    assert (W : exists z, w = VInt z).
    { unfold must_be_int, check_int_type in T. destruct v; try discriminate; [injection T as <-; eauto|].
      destruct (py_int s); [injection T as <-; eauto|discriminate]. }
    destruct W as [z ->]. destruct (LF (VInt z) eq_refl eq_refl) as [A B]. split; [auto|]. left. rewrite B. lia. }
  destruct (String.eqb n "bool"); [injection H as <-; split; [|split; discriminate]|].
  { intros v w U T. cbn [ts_test] in T.
    assert (W : exists b, w = VBool b).
    { unfold must_be_bool in T. destruct v; try discriminate; [injection T as <-; eauto|].
      destruct (String.eqb s "True" || String.eqb s "true"); [injection T as <-; eauto|].
      destruct (String.eqb s "False" || String.eqb s "false"); [injection T as <-; eauto|discriminate]. }
    destruct W as [b ->]. destruct (LF (VBool b) eq_refl eq_refl) as [A B]. split; [auto|]. left. rewrite B. lia. }
  destruct (String.eqb n "str"); [injection H as <-; split; [|split; [discriminate|]]|].
  { intros v w U T. cbn [ts_test] in T. unfold must_be_str in T. destruct v; try discriminate. injection T as <-. split; auto. }
  { intros x E. injection E as <-. split; [reflexivity|now apply U_leaf]. }
  destruct (String.eqb n "list"); [injection H as <-; split; [|split; intros x E; injection E as <-; auto]|].
  { intros v w U T. cbn [ts_test] in T. unfold must_be_list in T.
    assert (W : w = v \/ w = VList [v]).
    { destruct v; try (injection T as <-; auto);
        match type of T with (if ?b then _ else _) = _ => destruct b end; try discriminate; injection T as <-; auto. }
    destruct W as [->| ->]; [auto|]. split; [apply U_list; intros x [<-|[]]; auto|]. right. exists v. auto. }
  destruct (String.eqb n "dict"); [injection H as <-; split; [|split; intros x E; injection E as <-; auto]|discriminate].
  intros v w U T. cbn [ts_test] in T. unfold must_be_dict in T. destruct (is_dict v); [injection T as <-; auto|discriminate].
Qed.

Definition small_defs (s : val) : Prop :=
  s = VStr "int" \/ s = VDict [("type", VStr "list"); ("_subtype", VStr "int")] \/
  s = VDict [("mtu", VStr "int"); ("tags", VDict [("type", VStr "list"); ("_subtype", VStr "int")])].

Example ex_closed : closed [] std_types small_defs.
Proof.
  intros s dt D T. destruct D as [->|[->| ->]]; injection T as <-.
  - split; [discriminate|split; [discriminate|split; [discriminate|split; [discriminate|split; [now left|]]]]].
    intros t H. eapply std_tame; eauto.
  - split; [discriminate|split; [discriminate|split; [discriminate|split; [|split; [now right|]]]]].
    + intros st H. injection H as <-. now left.
    + intros t H. eapply std_tame; eauto.
  - split; [discriminate|split; [discriminate|split; [|split; [discriminate|split; [now left|]]]]].
    + intros ks k s1 H K. injection H as <-. cbn [entries filter fst snd negb is_internal starts_with] in K.
      assert (E : s1 = VStr "int" \/ s1 = VDict [("type", VStr "list"); ("_subtype", VStr "int")]).
      { cbn [dget] in K. destruct (String.eqb k "mtu"); [injection K as <-; auto|].
        destruct (String.eqb k "tags"); [injection K as <-; auto|discriminate]. }
      destruct E as [->| ->]; unfold small_defs; auto.
    + intros t H. eapply std_tame; eauto.
Qed.

Example ex_terminates : run [] std_types no_modules [] 6 [] [] false
  (CItem true [] (VDict [("tags", VList [VInt 1; VInt 2])]) (VDict [("mtu", VStr "int"); ("tags", VDict [("type", VStr "list"); ("_subtype", VStr "int")])])) <> VFuel.
Proof.
  apply validation_terminates with (defs := small_defs).
  - exact ex_closed.
  - intros m l ns valid k s [V1 V2] D. exfalso. unfold no_modules in *.
    assert (E : forall l b v, valid_loop [] b l v = Some v) by (clear; induction l as [|n l IH]; intros b v; cbn [valid_loop dget]; auto).
    Transparent get_valid_attributes. unfold get_valid_attributes in V2. Opaque get_valid_attributes. rewrite E in V2. injection V2 as <-. discriminate.
  - intros l ns valid k s [V1 V2] D. exfalso.
    assert (E : forall l b v, valid_loop [] b l v = Some v) by (clear; induction l as [|n l IH]; intros b v; cbn [valid_loop dget]; auto).
    Transparent get_valid_attributes. unfold get_valid_attributes in V2. Opaque get_valid_attributes. rewrite E in V2. injection V2 as <-. discriminate.
  - split; [|right; right; reflexivity]. apply U_dict; [repeat constructor; intros []|]. intros k x [E|[]]. injection E as _ <-.
    apply U_list. intros y [<-|[<-|[]]]; now apply U_leaf.
  - cbn. lia.
Qed.

Print Assumptions simple_value_exact.
Print Assumptions object_values_validated.
Print Assumptions list_elements_exact.
Print Assumptions false_value_crash.
Print Assumptions validation_fuel.
Print Assumptions validation_terminates.
Print Assumptions empty_dictionary_refuted.
Print Assumptions empty_module_refuted.
Print Assumptions zero_key_refuted.
Print Assumptions validation_terminates_refuted.
