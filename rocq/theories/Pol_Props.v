(* Properties C167 - C169: BGP policy attributes of EBGP neighbors. *)
From Coq Require Import String Ascii ZArith Lia Bool List.
From Verif Require Import Base Box_Model Clone_Model Pol_Model.
From Verif Require Sess_Model Vrf_Model Vrf_Props Version_Props Clone_Props Clone2_Props Text_Props Types_Props.
Import ListNotations.
Local Open Scope string_scope.
Local Open Scope list_scope.

Section Spec.
Variable feat : string -> string -> option val.
Variable provider : string.
Variable direct : list string.
Variable compound : list (string * pdir).
Variable bad : Z -> string -> bool.

(* ------------------------------------------------------------------ *)
(* Specification                                                        *)

Definition attrs : list string := direct ++ map fst compound.

(* the value of an attribute for the neighbors on an interface; [lp] - local preference copied from the node *)
Definition effective (lp : option val) (b : dict val) (a : string) (v : val) : Prop :=
  truthy v = true /\
  ((a = "locpref" /\ ((dget a b = Some v) \/ ((forall x, dget a b = Some x -> truthy x = false) /\ lp = Some v))) \/
   (a = "bandwidth" /\ exists x, dget a b = Some x /\ truthy x = true /\
      ((exists kv, x = VDict kv /\ v = x) \/ ((forall kv, x <> VDict kv) /\ v = VDict [("in", x)]))) \/
   (a <> "locpref" /\ a <> "bandwidth" /\ dget a b = Some v)).

(* the device supports an attribute *)
Definition supported (node a : string) : Prop :=
  exists f, feat node a = Some f /\ truthy f = true /\ forall l, f = VList l -> In (VStr provider) l.

Definition applied (node : string) (lp : option val) (b : dict val) (a : string) (v : val) : Prop :=
  In a attrs /\ effective lp b a v /\ supported node a.

(* what an attribute adds to the policy of a direction *)
Definition goes (node : string) (lp : option val) (b : dict val) (dir a : string) (x : val) : Prop :=
  exists v k, applied node lp b a v /\ dget a compound = Some k /\
    ((k = DIn /\ dir = "in" /\ x = v) \/ (k = DOut /\ dir = "out" /\ x = v) \/
     (k = DBoth /\ (dir = "in" \/ dir = "out") /\ exists kv, v = VDict kv /\ dget dir kv = Some x)).

(* a named policy of an interface *)
Definition wants (b : dict val) (dir : string) (v : val) : Prop := exists p, dget "policy" b = Some (VDict p) /\ dget dir p = Some v.
Definition uses (routing : bool) (idx : Z) (b : dict val) (dir : string) (v : val) : Prop :=
  (dir = "in" \/ dir = "out") /\ routing = true /\ wants b dir v /\ bad idx dir = false.

(* the policy of a neighbor *)
Definition ngb_policy (d : dict val) (dir : string) (v : val) : Prop := exists p, dget "policy" d = Some (VDict p) /\ dget dir p = Some v.

(* the route map of a neighbor and a direction *)
Definition new_map (node : string) (lp : option val) (routing : bool) (idx : Z) (i : pintf) (ngb dir name : string) (e : val) : Prop :=
  (dir = "in" \/ dir = "out") /\ (forall v, ~ uses routing idx (pi_bgp i) dir v) /\ name = map_name i ngb idx dir /\
  exists set, set <> [] /\ (forall a x, dget a set = Some x <-> goes node lp (pi_bgp i) dir a x) /\
    e = VList [VDict [("set", VDict set); ("sequence", VInt 10); ("action", VStr "permit")]].

(* restrictions of a device *)
Definition accepts (r x : val) : Prop :=
  match r with VList l => In (VStr (type_name x)) l \/ In x l | VBool _ => True | _ => r = VStr (type_name x) \/ r = x end.

Definition policy_error (node : string) (lp : option val) (routing : bool) (idx : Z) (i : pintf) (ngb : string) (e : perr) : Prop :=
  let b := pi_bgp i in
  (e = PRouting /\ routing = false /\ exists dir v, (dir = "in" \/ dir = "out") /\ wants b dir v) \/
  (exists a v, In a attrs /\ effective lp b a v /\
     ((e = PSupport (Sess_Model.ESupport node a ngb) /\ (forall f, feat node a = Some f -> truthy f = false)) \/
      (e = PSupport (Sess_Model.EProvider node a) /\ exists l, feat node a = Some (VList l) /\ l <> [] /\ ~ In (VStr provider) l))) \/
  (exists a v kv fd kw x, applied node lp b a v /\ dget a compound <> None /\ v = VDict kv /\ feat node a = Some (VDict fd) /\ In (kw, x) kv /\
     ((e = PKey a kw /\ dget kw fd = None) \/ (e = PValue a kw x /\ exists r, dget kw fd = Some r /\ ~ accepts r x))) \/
  (exists dir a x v, e = PMix ngb dir /\ goes node lp b dir a x /\ uses routing idx b dir v).

Lemma or_compat : forall A B C D : Prop, (A <-> B) -> (C <-> D) -> (A \/ C <-> B \/ D).
Proof. intros A B C D H K. rewrite H, K. reflexivity. Qed.

(* ------------------------------------------------------------------ *)
(* Effective attributes                                                 *)

Definition norm (lp : option val) (b : dict val) : dict val := copy_locpref lp (fix_bandwidth b).

Lemma fix_other : forall b a, a <> "bandwidth" -> dget a (fix_bandwidth b) = dget a b.
Proof.
  intros b a N. unfold fix_bandwidth. destruct (dget "bandwidth" b) as [v|]; [|reflexivity]. destruct (truthy v); [|reflexivity].
  destruct v; try reflexivity; apply dget_dset_other; exact N.
Qed.

Lemma copy_other : forall lp b a, a <> "locpref" -> dget a (copy_locpref lp b) = dget a b.
Proof.
  intros lp b a N. unfold copy_locpref. destruct lp as [v|]; [|reflexivity]. destruct (dget "locpref" b) as [x|]; [destruct (truthy x); [reflexivity|]|];
    apply dget_dset_other; exact N.
Qed.

Lemma norm_effective : forall lp b a v, (dget a (norm lp b) = Some v /\ truthy v = true) <-> effective lp b a v.
Proof.
  intros lp b a v. unfold effective, norm. destruct (string_dec a "locpref") as [Q|Q].
  - subst a. unfold copy_locpref. assert (F : dget "locpref" (fix_bandwidth b) = dget "locpref" b) by (apply fix_other; discriminate). split.
    + intros [H T]. split; [exact T|]. left. split; [reflexivity|]. destruct lp as [w|]; [|left; rewrite <- F; exact H].
      rewrite F in H. destruct (dget "locpref" b) as [x|] eqn:X.
      * destruct (truthy x) eqn:TX; [left; rewrite F in H; exact H|]. rewrite dget_dset_same in H. injection H as H. subst w. right. split; [|reflexivity].
        intros y Y. injection Y as Y. subst y. exact TX.
      * rewrite dget_dset_same in H. injection H as H. subst w. right. split; [intros y Y; discriminate Y|reflexivity].
    + intros [T [[_ H]|[[H _]|[H _]]]]; [|discriminate H|exfalso; apply H; reflexivity]. split; [|exact T]. destruct H as [H|[H L]].
      * destruct lp as [w|]; [|rewrite F; exact H]. rewrite F, H, T. rewrite F. exact H.
      * subst lp. rewrite F. destruct (dget "locpref" b) as [x|] eqn:X; [rewrite (H x eq_refl)|]; apply dget_dset_same.
  - rewrite copy_other by exact Q. destruct (string_dec a "bandwidth") as [B|B].
    + subst a. unfold fix_bandwidth. destruct (dget "bandwidth" b) as [x|] eqn:X.
      2:{ rewrite X. split; [intros [H _]; discriminate H|]. intros [_ [[H _]|[[_ [x [H _]]]|[_ [H _]]]]]; [discriminate H|discriminate H|exfalso; apply H; reflexivity]. }
      destruct (truthy x) eqn:TX.
      2:{ rewrite X. split; [intros [H T]; injection H as H; subst; rewrite T in TX; discriminate TX|].
          intros [_ [[H _]|[[_ [y [H [T _]]]]|[_ [H _]]]]]; [discriminate H|injection H as H; subst; rewrite T in TX; discriminate TX|exfalso; apply H; reflexivity]. }
      assert (NC : (forall kv, x <> VDict kv) -> (dget "bandwidth" (dset "bandwidth" (VDict [("in", x)]) b) = Some v /\ truthy v = true <->
         truthy v = true /\ ("bandwidth" = "locpref" /\ (Some x = Some v \/ (forall y, Some x = Some y -> truthy y = false) /\ lp = Some v) \/
         ("bandwidth" = "bandwidth" /\ exists x0, Some x = Some x0 /\ truthy x0 = true /\ ((exists kv, x0 = VDict kv /\ v = x0) \/ (forall kv, x0 <> VDict kv) /\ v = VDict [("in", x0)])) \/
         "bandwidth" <> "locpref" /\ "bandwidth" <> "bandwidth" /\ Some x = Some v))).
      { intros ND. rewrite dget_dset_same. split.
        - intros [H T]. injection H as H. subst v. split; [reflexivity|]. right. left. split; [reflexivity|]. exists x. split; [reflexivity|]. split; [exact TX|].
          right. split; [exact ND|reflexivity].
        - intros [T [[H _]|[[_ [y [H [_ [[kv [K _]]|[_ K]]]]]]|[_ [H _]]]]].
          + discriminate H.
          + injection H as H. subst. exfalso. exact (ND kv eq_refl).
          + injection H as H. subst. split; [reflexivity|exact T].
          + exfalso. apply H. reflexivity. }
      destruct x; try (apply NC; discriminate). clear NC. rewrite X. split.
      * intros [H T]. injection H as H. subst v. split; [exact T|]. right. left. split; [reflexivity|]. eexists. split; [reflexivity|]. split; [exact TX|]. left. eexists. split; reflexivity.
      * intros [T [[H _]|[[_ [y [H [_ [[kv [K1 K2]]|[K _]]]]]]|[_ [H _]]]]].
        -- discriminate H.
        -- injection H as H. subst. split; [reflexivity|exact T].
        -- injection H as H. subst. exfalso. exact (K _ eq_refl).
        -- exfalso. apply H. reflexivity.
    + rewrite fix_other by exact B. split.
      * intros [H T]. split; [exact T|]. right. right. split; [exact Q|]. split; [exact B|exact H].
      * intros [T [[H _]|[[H _]|[_ [_ H]]]]]; [contradiction|contradiction|split; assumption].
Qed.

Lemma norm_policy : forall lp b, dget "policy" (norm lp b) = dget "policy" b.
Proof. intros lp b. unfold norm. rewrite copy_other by discriminate. apply fix_other. discriminate. Qed.

Lemma support_spec : forall node a ngb, Sess_Model.check_support feat provider node a ngb = [] <-> supported node a.
Proof.
  intros node a ngb. unfold Sess_Model.check_support, supported. destruct (feat node a) as [f|].
  2:{ split; [discriminate|intros [f [H _]]; discriminate H]. }
  destruct (truthy f) eqn:T; cbn [negb].
  2:{ split; [discriminate|]. intros [g [H [K _]]]. injection H as H. subst g. rewrite K in T. discriminate T. }
  assert (NL : (forall l, f <> VList l) -> (@nil Sess_Model.serr = [] <-> exists g, Some f = Some g /\ truthy g = true /\ forall l, g = VList l -> In (VStr provider) l)).
  { intros N. split; [|reflexivity]. intros _. exists f. split; [reflexivity|]. split; [exact T|]. intros l E. exfalso. exact (N l E). }
  destruct f as [| | | |l|]; try (apply NL; discriminate). clear NL. destruct (existsb (veqb (VStr provider)) l) eqn:E.
  - split; [|reflexivity]. intros _. exists (VList l). split; [reflexivity|]. split; [exact T|]. intros l' Q. injection Q as Q. subst l'.
    apply existsb_exists in E. destruct E as [x [I X]]. apply Clone_Props.veqb_true in X. subst x. exact I.
  - split; [discriminate|]. intros [g [H [_ K]]]. injection H as H. subst g. specialize (K l eq_refl).
    assert (W : existsb (veqb (VStr provider)) l = true) by (apply existsb_exists; exists (VStr provider); split; [exact K|apply Clone_Props.veqb_true; reflexivity]).
    rewrite W in E. discriminate E.
Qed.

Lemma support_error : forall node a ngb e, In e (Sess_Model.check_support feat provider node a ngb) <->
  (e = Sess_Model.ESupport node a ngb /\ forall f, feat node a = Some f -> truthy f = false) \/
  (e = Sess_Model.EProvider node a /\ exists l, feat node a = Some (VList l) /\ l <> [] /\ ~ In (VStr provider) l).
Proof.
  intros node a ngb e. unfold Sess_Model.check_support. destruct (feat node a) as [f|] eqn:F.
  2:{ split.
      - intros [H|[]]. left. split; [symmetry; exact H|]. intros f E. discriminate E.
      - intros [[H _]|[_ [l [E _]]]]; [left; symmetry; exact H|discriminate E]. }
  destruct (truthy f) eqn:T; cbn [negb].
  2:{ split.
      - intros [H|[]]. left. split; [symmetry; exact H|]. intros g E. injection E as E. subst g. exact T.
      - intros [[H _]|[_ [l [E [N _]]]]]; [left; symmetry; exact H|]. injection E as E. subst f. destruct l; [exfalso; apply N; reflexivity|discriminate T]. }
  assert (NL : (forall l, f <> VList l) -> (In e [] <-> e = Sess_Model.ESupport node a ngb /\ (forall g, Some f = Some g -> truthy g = false) \/
     (e = Sess_Model.EProvider node a /\ exists l, Some f = Some (VList l) /\ l <> [] /\ ~ In (VStr provider) l))).
  { intros N. split; [intros []|]. intros [[_ H]|[_ [l [E _]]]]; [rewrite (H f eq_refl) in T; discriminate T|]. injection E as E. exact (N l E). }
  destruct f as [| | | |l|]; try (apply NL; discriminate). clear NL.
  assert (W : existsb (veqb (VStr provider)) l = true <-> In (VStr provider) l).
  { rewrite existsb_exists. split.
    - intros [x [I X]]. apply Clone_Props.veqb_true in X. subst x. exact I.
    - intros I. exists (VStr provider). split; [exact I|apply Clone_Props.veqb_true; reflexivity]. }
  destruct (existsb (veqb (VStr provider)) l).
  - split; [intros []|]. intros [[_ H]|[_ [l' [E [_ N]]]]]; [rewrite (H _ eq_refl) in T; discriminate T|]. injection E as E. subst l'. apply N. apply W. reflexivity.
  - split.
    + intros [H|[]]. right. split; [symmetry; exact H|]. exists l. split; [reflexivity|]. split; [intros Q; subst l; discriminate T|].
      intros I. apply W in I. discriminate I.
    + intros [[_ H]|[H _]]; [rewrite (H _ eq_refl) in T; discriminate T|left; symmetry; exact H].
Qed.

(* ------------------------------------------------------------------ *)
(* The loop over the attributes                                         *)

Section One.
Variable node ngb : string.
Variable b : dict val.                                     (* normalized attributes *)

Definition okb (a : string) : bool :=
  match dget a b with
  | Some v => truthy v && match Sess_Model.check_support feat provider node a ngb with [] => true | _ => false end
  | None => false
  end.

Definition gives (dir a : string) : option val :=
  if okb a then
    match dget a compound, dget a b with
    | Some DIn, Some v => if String.eqb dir "in" then Some v else None
    | Some DOut, Some v => if String.eqb dir "out" then Some v else None
    | Some DBoth, Some (VDict kv) => dget dir kv
    | _, _ => None
    end
  else None.

Definition err_of (a : string) : list perr :=
  match dget a b with
  | Some v => if truthy v then
                match Sess_Model.check_support feat provider node a ngb with
                | [] => match dget a compound with Some _ => check_direction (feat node a) a v | None => [] end
                | e => map PSupport e
                end
              else []
  | None => []
  end.

Definition upd_opt (o : option val) (x : option val) : option val := match o with Some v => Some v | None => x end.

Lemma apply_one : forall s a, let s' := apply_attr feat provider compound node ngb b s a in
  (forall k, dget k (pa_d s') = if String.eqb k a && okb a then dget a b else dget k (pa_d s)) /\
  (forall k, dget k (pa_in s') = if String.eqb k a then upd_opt (gives "in" a) (dget k (pa_in s)) else dget k (pa_in s)) /\
  (forall k, dget k (pa_out s') = if String.eqb k a then upd_opt (gives "out" a) (dget k (pa_out s)) else dget k (pa_out s)) /\
  pa_err s' = pa_err s ++ err_of a /\ pa_found s' = pa_found s || okb a.
Proof.
  intros s a. cbv zeta. unfold apply_attr.
  assert (SET : forall k (v : val) d, dget k (dset a v d) = if String.eqb k a then Some v else dget k d).
  { intros k v d. destruct (String.eqb_spec k a) as [Q|Q]; [subst; apply dget_dset_same|apply dget_dset_other; exact Q]. }
  assert (ID : forall k (x : option val), (if String.eqb k a then x else x) = x) by (intros k x; destruct (String.eqb k a); reflexivity).
  unfold gives, err_of. unfold okb. destruct (dget a b) as [v|] eqn:V.
  2:{ cbn [upd_opt]. repeat split; try (intros k; rewrite ?andb_false_r, ?ID; reflexivity); [rewrite app_nil_r; reflexivity|rewrite orb_false_r; reflexivity]. }
  destruct (truthy v) eqn:T; cbn [negb andb].
  2:{ cbn [upd_opt]. repeat split; try (intros k; rewrite ?andb_false_r, ?ID; reflexivity); [rewrite app_nil_r; reflexivity|rewrite orb_false_r; reflexivity]. }
  destruct (Sess_Model.check_support feat provider node a ngb) as [|e es].
  2:{ cbn [upd_opt pa_d pa_in pa_out pa_err pa_found]. repeat split; try (intros k; rewrite ?andb_false_r, ?ID; reflexivity). rewrite orb_false_r; reflexivity. }
  destruct (dget a compound) as [[| |]|]; cbn [append_attr pa_d pa_in pa_out pa_err pa_found upd_opt String.eqb Ascii.eqb Bool.eqb].
  - repeat split; try (intros k; rewrite ?andb_true_r, ?SET, ?ID; reflexivity). rewrite orb_true_r; reflexivity.
  - repeat split; try (intros k; rewrite ?andb_true_r, ?SET, ?ID; reflexivity). rewrite orb_true_r; reflexivity.
  - split; [intros k; rewrite andb_true_r, SET; reflexivity|]. split; [|split; [|split; [reflexivity|rewrite orb_true_r; reflexivity]]].
    + intros k. destruct v as [| | | | |kv]; cbn [dget upd_opt]; rewrite ?ID; try reflexivity. destruct (dget "in" kv); cbn [upd_opt]; rewrite ?SET, ?ID; reflexivity.
    + intros k. destruct v as [| | | | |kv]; cbn [dget upd_opt]; rewrite ?ID; try reflexivity. destruct (dget "out" kv); cbn [upd_opt]; rewrite ?SET, ?ID; reflexivity.
  - repeat split; try (intros k; rewrite ?andb_true_r, ?SET, ?ID; reflexivity); [rewrite app_nil_r; reflexivity|rewrite orb_true_r; reflexivity].
Qed.

Lemma mem_app : forall k l (a : string), memS k (l ++ [a]) = memS k l || String.eqb k a.
Proof.
  intros k l a. apply eq_true_iff_eq. rewrite orb_true_iff, !memS_true, in_app_iff, String.eqb_eq. cbn [In]. split.
  - intros [H|[H|[]]]; [left; exact H|right; symmetry; exact H].
  - intros [H|H]; [left; exact H|right; left; symmetry; exact H].
Qed.

Lemma apply_all : forall l d0, let s := fold_left (apply_attr feat provider compound node ngb b) l (mk_pa d0 [] [] [] false) in
  (forall k, dget k (pa_d s) = if memS k l && okb k then dget k b else dget k d0) /\
  (forall k, dget k (pa_in s) = if memS k l then gives "in" k else None) /\
  (forall k, dget k (pa_out s) = if memS k l then gives "out" k else None) /\
  pa_err s = flat_map err_of l /\ pa_found s = existsb okb l.
Proof.
  intros l d0. cbv zeta. induction l as [|a l IH] using rev_ind; [repeat split; reflexivity|]. rewrite fold_left_app. cbn [fold_left].
  set (s := fold_left (apply_attr feat provider compound node ngb b) l (mk_pa d0 [] [] [] false)) in *. clearbody s. destruct IH as [A [B [C [D E]]]].
  destruct (apply_one s a) as [A1 [B1 [C1 [D1 E1]]]].
  split; [|split; [|split; [|split]]].
  - intros k. rewrite A1, A, mem_app. destruct (String.eqb_spec k a) as [Q|Q]; [subst k; rewrite orb_true_r; cbn [andb]; destruct (okb a); [reflexivity|rewrite andb_false_r; reflexivity]|].
    rewrite orb_false_r. reflexivity.
  - intros k. rewrite B1, B, mem_app. destruct (String.eqb_spec k a) as [Q|Q]; [|rewrite orb_false_r; reflexivity]. subst k. rewrite orb_true_r.
    destruct (gives "in" a) as [x|]; cbn [upd_opt]; [reflexivity|]. destruct (memS a l); reflexivity.
  - intros k. rewrite C1, C, mem_app. destruct (String.eqb_spec k a) as [Q|Q]; [|rewrite orb_false_r; reflexivity]. subst k. rewrite orb_true_r.
    destruct (gives "out" a) as [x|]; cbn [upd_opt]; [reflexivity|]. destruct (memS a l); reflexivity.
  - rewrite D1, D, flat_map_app. cbn [flat_map]. rewrite app_nil_r. reflexivity.
  - rewrite E1, E, existsb_app. cbn [existsb]. rewrite orb_false_r. reflexivity.
Qed.
End One.

Lemma okb_spec : forall node ngb lp b a v, (okb node ngb (norm lp b) a = true /\ dget a (norm lp b) = Some v) <-> effective lp b a v /\ supported node a.
Proof.
  intros node ngb lp b a v. rewrite <- norm_effective, <- (support_spec node a ngb). unfold okb. split.
  - intros [H E]. rewrite E in H. apply andb_true_iff in H. destruct H as [T S]. split; [split; assumption|].
    destruct (Sess_Model.check_support feat provider node a ngb); [reflexivity|discriminate S].
  - intros [[E T] S]. rewrite E, T, S. split; reflexivity.
Qed.

Lemma okb_value : forall node ngb b a, okb node ngb b a = true -> exists v, dget a b = Some v.
Proof. intros node ngb b a H. unfold okb in H. destruct (dget a b) as [v|]; [exists v; reflexivity|discriminate H]. Qed.

Lemma gives_spec : forall node ngb lp b dir a x, (dir = "in" \/ dir = "out") ->
  ((if memS a attrs then gives node ngb (norm lp b) dir a else None) = Some x <-> goes node lp b dir a x).
Proof.
  intros node ngb lp b dir a x DIR. unfold goes, applied. destruct (memS a attrs) eqn:M.
  2:{ apply memS_false in M. split; [discriminate|]. intros [v [k [[I _] _]]]. contradiction. }
  apply memS_true in M. unfold gives. destruct (okb node ngb (norm lp b) a) eqn:O.
  2:{ split; [discriminate|]. intros [v [k [[_ A] _]]]. apply (okb_spec node ngb) in A. destruct A as [A _]. rewrite A in O. discriminate O. }
  destruct (okb_value _ _ _ _ O) as [v V]. rewrite V. assert (AP : effective lp b a v /\ supported node a) by (apply (okb_spec node ngb); split; assumption).
  assert (UN : forall w, effective lp b a w -> w = v) by (intros w W; apply norm_effective in W; destruct W as [W _]; rewrite V in W; injection W as W; symmetry; exact W).
  split.
  - intros H. destruct (dget a compound) as [k|]; [|discriminate H]. exists v, k. split; [split; [exact M|exact AP]|]. split; [reflexivity|]. destruct k.
    + left. destruct (String.eqb_spec dir "in") as [Q|Q]; [|discriminate H]. injection H as H. split; [reflexivity|]. split; [exact Q|symmetry; exact H].
    + right. left. destruct (String.eqb_spec dir "out") as [Q|Q]; [|discriminate H]. injection H as H. split; [reflexivity|]. split; [exact Q|symmetry; exact H].
    + right. right. split; [reflexivity|]. split; [exact DIR|]. destruct v; try discriminate H. eexists. split; [reflexivity|exact H].
  - intros [w [k [[_ [W _]] [K H]]]]. rewrite (UN w W) in H. rewrite K. destruct H as [[Q1 [Q2 Q3]]|[[Q1 [Q2 Q3]]|[Q1 [_ [kv [Q2 Q3]]]]]]; subst k.
    + subst. reflexivity.
    + subst. reflexivity.
    + rewrite Q2. exact Q3.
Qed.

Lemma dpop_all : forall l d k, dget k (fold_left (fun d a => dpop a d) l d : dict val) = if memS k l then None else dget k d.
Proof.
  induction l as [|a l IH]; intros d k; cbn [fold_left]; [reflexivity|]. rewrite IH. unfold memS. cbn [existsb]. fold (memS k l).
  destruct (memS k l); [rewrite orb_true_r; reflexivity|]. rewrite orb_false_r. destruct (String.eqb_spec k a) as [Q|Q]; [subst; apply dget_dpop_same|apply dget_dpop_other; exact Q].
Qed.

Lemma named_spec : forall routing idx b dir v, dget dir (named bad routing idx b) = Some v <-> uses routing idx b dir v.
Proof.
  intros routing idx b dir v. unfold named, uses, wants. destruct (dget "policy" b) as [[| | | | |p]|];
    try (split; [discriminate|intros [_ [_ [[q [H _]] _]]]; discriminate H]).
  destruct routing; [|split; [discriminate|intros [_ [H _]]; discriminate H]]. cbn [flat_map]. rewrite app_nil_r.
  assert (ONE : forall x (r : dict val), dget dir ((match dget x p with Some w => if bad idx x then [] else [(x, w)] | None => [] end) ++ r) =
     if String.eqb dir x then (match dget x p with Some w => if bad idx x then dget dir r else Some w | None => dget dir r end) else dget dir r).
  { intros x r. destruct (dget x p) as [w|]; [destruct (bad idx x)|]; cbn [app]; [destruct (String.eqb dir x); reflexivity| |destruct (String.eqb dir x); reflexivity].
    cbn [dget]. destruct (String.eqb dir x); reflexivity. }
  assert (ONE' : forall x, dget dir (match dget x p with Some w => if bad idx x then [] else [(x, w)] | None => [] end) =
     if String.eqb dir x then (match dget x p with Some w => if bad idx x then None else Some w | None => None end) else None).
  { intros x. specialize (ONE x []). rewrite app_nil_r in ONE. exact ONE. }
  rewrite ONE, ONE'. split.
  - intros H. destruct (String.eqb_spec dir "in") as [Q|Q].
    + subst dir. cbn [String.eqb Ascii.eqb Bool.eqb] in H. destruct (dget "in" p) as [w|] eqn:W; [|discriminate H]. destruct (bad idx "in") eqn:BD; [discriminate H|]. injection H as H. subst w.
      split; [left; reflexivity|]. split; [reflexivity|]. split; [|reflexivity]. exists p. split; [reflexivity|exact W].
    + destruct (String.eqb_spec dir "out") as [Q2|Q2]; [|discriminate H]. subst dir. destruct (dget "out" p) as [w|] eqn:W; [|discriminate H].
      destruct (bad idx "out") eqn:BD; [discriminate H|]. injection H as H. subst w.
      split; [right; reflexivity|]. split; [reflexivity|]. split; [|reflexivity]. exists p. split; [reflexivity|exact W].
  - intros [D [_ [[q [E G]] BD]]]. injection E as E. subst q. destruct D as [D|D]; subst dir; cbn [String.eqb Ascii.eqb Bool.eqb]; rewrite G, BD; reflexivity.
Qed.

Lemma empty_spec : forall d : dict val, d = [] <-> forall k, dget k d = None.
Proof.
  intros d. split; [intros H k; subst; reflexivity|]. intros H. destruct d as [|[k v] d]; [reflexivity|]. specialize (H k). cbn [dget] in H. rewrite String.eqb_refl in H. discriminate H.
Qed.

(* ------------------------------------------------------------------ *)

Lemma create_spec : forall i ngb idx dir set pol pol' m e, create_policy i ngb idx dir set pol = (pol', m, e) ->
  (forall k, k <> dir -> dget k pol' = dget k pol) /\
  (set = [] -> pol' = pol /\ m = [] /\ e = []) /\
  (set <> [] -> forall v, dget dir pol = Some v -> pol' = pol /\ m = [] /\ e = [PMix ngb dir]) /\
  (set <> [] -> dget dir pol = None -> dget dir pol' = Some (VStr (map_name i ngb idx dir)) /\ m = [(map_name i ngb idx dir, entry set)] /\ e = []).
Proof.
  intros i ngb idx dir set pol pol' m e H. unfold create_policy in H. destruct set as [|kv set].
  - injection H as H1 H2 H3. subst. split; [reflexivity|]. split; [intros _; repeat split|]. split; intros N; exfalso; apply N; reflexivity.
  - unfold dmem in H. destruct (dget dir pol) as [w|] eqn:W; injection H as H1 H2 H3; subst.
    + split; [reflexivity|]. split; [discriminate|]. split; [intros _ v _; repeat split|]. intros _ Q. discriminate Q.
    + split; [intros k K; apply dget_dset_other; exact K|]. split; [discriminate|]. split; [intros _ v Q; discriminate Q|].
      intros _ _. split; [apply dget_dset_same|]. split; reflexivity.
Qed.

Lemma set_policy_get : forall pol d k, k <> "policy" -> dget k (set_policy pol d) = dget k d.
Proof. intros pol d k N. unfold set_policy. destruct pol; [reflexivity|]. apply dget_dset_other. exact N. Qed.

(* One neighbor: attributes, policies, route maps. *)
Theorem policy_neighbor_exact : forall node lp routing idx i d,
  ~ In "policy" attrs -> let ngb := Sess_Model.str_of "name" d in
  let o := policy_one feat provider direct compound bad node lp routing idx i d in
  (forall a v, In a attrs -> (dget a (po_d o) = Some v <-> applied node lp (pi_bgp i) a v)) /\
  (forall k, ~ In k attrs -> k <> "policy" -> dget k (po_d o) = dget k d) /\
  (forall dir v, ngb_policy (po_d o) dir v <->
     uses routing idx (pi_bgp i) dir v \/ exists name e, new_map node lp routing idx i ngb dir name e /\ v = VStr name) /\
  (forall name e, In (name, e) (po_maps o) -> exists dir, new_map node lp routing idx i ngb dir name e) /\
  (forall dir a x, goes node lp (pi_bgp i) dir a x -> (forall v, ~ uses routing idx (pi_bgp i) dir v) ->
     exists e, In (map_name i ngb idx dir, e) (po_maps o) /\ new_map node lp routing idx i ngb dir (map_name i ngb idx dir) e) /\
  (po_used o = true <-> (exists a v, applied node lp (pi_bgp i) a v) \/ (exists dir v, uses routing idx (pi_bgp i) dir v)).
Proof.
  intros node lp routing idx i d NP ngb o. unfold policy_one in o. fold ngb in o. set (b := pi_bgp i) in *.
  change (attr_list direct compound) with attrs in o. fold (norm lp b) in o.
  set (d0 := fold_left (fun d a => dpop a d) (attrs ++ ["policy"]) d) in o.
  destruct (apply_all node ngb (norm lp b) attrs d0) as [A [B [C [_ F]]]].
  set (s := fold_left (apply_attr feat provider compound node ngb (norm lp b)) attrs (mk_pa d0 [] [] [] false)) in *. clearbody s.
  assert (D0 : forall k, dget k d0 = if memS k (attrs ++ ["policy"]) then None else dget k d) by (intros k; apply dpop_all). clearbody d0.
  pose proof (fun dir v => named_spec routing idx (norm lp b) dir v) as NM.
  set (pol := named bad routing idx (norm lp b)) in *. clearbody pol.
  assert (NU : forall dir v, dget dir pol = Some v <-> uses routing idx b dir v).
  { intros dir v. rewrite NM. unfold uses, wants. rewrite norm_policy. reflexivity. }
  clear NM.
  assert (GI : forall a x, dget a (pa_in s) = Some x <-> goes node lp b "in" a x) by (intros a x; rewrite B; apply gives_spec; left; reflexivity).
  assert (GO : forall a x, dget a (pa_out s) = Some x <-> goes node lp b "out" a x) by (intros a x; rewrite C; apply gives_spec; right; reflexivity).
  destruct (create_policy i ngb idx "in" (pa_in s) pol) as [[p1 m1] e1] eqn:C1. destruct (create_policy i ngb idx "out" (pa_out s) p1) as [[p2 m2] e2] eqn:C2.
  apply create_spec in C1. destruct C1 as [O1 [E1 [X1 W1]]]. apply create_spec in C2. destruct C2 as [O2 [E2 [X2 W2]]].
  subst o. cbn [po_d po_maps po_used].
  assert (IP : dget "in" p2 = dget "in" p1) by (apply O2; discriminate).
  assert (OP : dget "out" p1 = dget "out" pol) by (apply O1; discriminate).
  assert (KO : forall k, k <> "in" -> k <> "out" -> dget k p2 = dget k pol) by (intros k K1 K2; rewrite (O2 k K2); apply O1; exact K1).
  assert (NMAP : forall dir set, (dir = "in" \/ dir = "out") -> (forall a x, dget a set = Some x <-> goes node lp b dir a x) -> set <> [] -> dget dir pol = None ->
     new_map node lp routing idx i ngb dir (map_name i ngb idx dir) (entry set)).
  { intros dir set DD G NE NONE. unfold new_map. fold b. split; [exact DD|]. split.
    - intros v U. apply NU in U. rewrite U in NONE. discriminate NONE.
    - split; [reflexivity|]. exists set. split; [exact NE|]. split; [exact G|reflexivity]. }
  assert (NEW : forall dir name e, new_map node lp routing idx i ngb dir name e -> dget dir pol = None /\ name = map_name i ngb idx dir /\
     exists a x, goes node lp b dir a x).
  { intros dir name e [DD [NN [EN [set [NE [G _]]]]]]. fold b in NN, G. split.
    - destruct (dget dir pol) as [w|] eqn:W; [|reflexivity]. exfalso. apply (NN w). apply NU. exact W.
    - split; [exact EN|]. destruct set as [|[a x] set]; [exfalso; apply NE; reflexivity|]. exists a, x. apply G. cbn [dget]. rewrite String.eqb_refl. reflexivity. }
  assert (NONEMPTY : forall (set : dict val) a x, dget a set = Some x -> set <> []) by (intros set a x H Q; subst; discriminate H).
  (* the policy dictionary *)
  assert (PIN : forall v, dget "in" p2 = Some v <-> uses routing idx b "in" v \/ exists name e, new_map node lp routing idx i ngb "in" name e /\ v = VStr name).
  { intros v. rewrite IP. destruct (dget "in" pol) as [w|] eqn:W.
    - assert (P1 : p1 = pol).
      { destruct (pa_in s) as [|y r]; [apply E1; reflexivity|]. apply (X1 ltac:(discriminate) w eq_refl). }
      rewrite P1. rewrite NU. split; [intros H; left; exact H|]. intros [H|[name [e [H _]]]]; [exact H|]. apply NEW in H. destruct H as [H _]. rewrite W in H. discriminate H.
    - destruct (pa_in s) as [|y r] eqn:PI.
      + destruct (E1 eq_refl) as [P1 _]. rewrite P1, W. split; [discriminate|]. intros [H|[name [e [H _]]]].
        * apply NU in H. rewrite W in H. discriminate H.
        * apply NEW in H. destruct H as [_ [_ [a [x H]]]]. apply GI in H. discriminate H.
      + destruct (W1 ltac:(discriminate) eq_refl) as [P1 _]. rewrite P1. split.
        * intros H. injection H as H. right. exists (map_name i ngb idx "in"), (entry (y :: r)). split; [|symmetry; exact H].
          apply NMAP; [left; reflexivity|exact GI|discriminate|exact W].
        * intros [H|[name [e [H E]]]]; [apply NU in H; rewrite W in H; discriminate H|]. apply NEW in H. destruct H as [_ [H _]]. subst. reflexivity. }
  assert (POUT : forall v, dget "out" p2 = Some v <-> uses routing idx b "out" v \/ exists name e, new_map node lp routing idx i ngb "out" name e /\ v = VStr name).
  { intros v. rewrite OP in X2, W2. destruct (dget "out" pol) as [w|] eqn:W.
    - assert (P1 : dget "out" p2 = Some w).
      { destruct (pa_out s) as [|y r]; [destruct (E2 eq_refl) as [Q _]; rewrite Q; exact OP|]. destruct (X2 ltac:(discriminate) w eq_refl) as [Q _]. rewrite Q. exact OP. }
      rewrite P1, <- W, NU. split; [intros H; left; exact H|]. intros [H|[name [e [H _]]]]; [exact H|]. apply NEW in H. destruct H as [H _]. rewrite W in H. discriminate H.
    - destruct (pa_out s) as [|y r] eqn:PI.
      + destruct (E2 eq_refl) as [P1 _]. rewrite P1, OP. split; [discriminate|]. intros [H|[name [e [H _]]]].
        * apply NU in H. rewrite W in H. discriminate H.
        * apply NEW in H. destruct H as [_ [_ [a [x H]]]]. apply GO in H. discriminate H.
      + destruct (W2 ltac:(discriminate) eq_refl) as [P1 _]. rewrite P1. split.
        * intros H. injection H as H. right. exists (map_name i ngb idx "out"), (entry (y :: r)). split; [|symmetry; exact H].
          apply NMAP; [right; reflexivity|exact GO|discriminate|exact W].
        * intros [H|[name [e [H E]]]]; [apply NU in H; rewrite W in H; discriminate H|]. apply NEW in H. destruct H as [_ [H _]]. subst. reflexivity. }
  assert (POL : dget "policy" (pa_d s) = None).
  { rewrite A. assert (M : memS "policy" attrs = false) by (apply memS_false; exact NP). rewrite M. cbn [andb]. rewrite D0.
    assert (M2 : memS "policy" (attrs ++ ["policy"]) = true) by (apply memS_true; apply in_or_app; right; left; reflexivity). rewrite M2. reflexivity. }
  split; [|split; [|split; [|split; [|split]]]].
  - intros a v I. assert (AP : a <> "policy") by (intros Q; subst; contradiction). rewrite set_policy_get by exact AP. rewrite A.
    apply memS_true in I. rewrite I. cbn [andb]. apply memS_true in I. unfold applied. rewrite <- (okb_spec node ngb). destruct (okb node ngb (norm lp b) a).
    + split; [intros H; split; [exact I|split; [reflexivity|exact H]]|intros [_ [_ H]]; exact H].
    + split; [|intros [_ [H _]]; discriminate H]. intros H. rewrite D0 in H.
      assert (M2 : memS a (attrs ++ ["policy"]) = true) by (apply memS_true; apply in_or_app; left; exact I). rewrite M2 in H. discriminate H.
  - intros k NK KP. rewrite set_policy_get by exact KP. rewrite A. assert (M : memS k attrs = false) by (apply memS_false; exact NK). rewrite M. cbn [andb]. rewrite D0.
    assert (M2 : memS k (attrs ++ ["policy"]) = false).
    { apply memS_false. intros Q. apply in_app_or in Q. destruct Q as [Q|[Q|[]]]; [contradiction|]. apply KP. symmetry. exact Q. }
    rewrite M2. reflexivity.
  - intros dir v. unfold ngb_policy, set_policy.
    assert (G : (exists p, dget "policy" (match p2 with [] => pa_d s | _ => dset "policy" (VDict p2) (pa_d s) end) = Some (VDict p) /\ dget dir p = Some v) <-> dget dir p2 = Some v).
    { destruct p2 as [|y r].
      - split; [intros [p [H _]]; rewrite POL in H; discriminate H|intros H; discriminate H].
      - rewrite dget_dset_same. split; [intros [p [H1 H2]]; injection H1 as H1; subst p; exact H2|intros H; exists (y :: r); split; [reflexivity|exact H]]. }
    rewrite G. destruct (string_dec dir "in") as [Q|Q]; [subst; apply PIN|]. destruct (string_dec dir "out") as [Q2|Q2]; [subst; apply POUT|].
    rewrite KO by assumption. split.
    + intros H. left. apply NU. exact H.
    + intros [H|[name [e [[[DD|DD] _] _]]]]; [apply NU; exact H|contradiction|contradiction].
  - intros name e H. apply in_app_or in H. destruct H as [H|H].
    + exists "in". destruct (pa_in s) as [|y r] eqn:PI; [destruct (E1 eq_refl) as [_ [Q _]]; subst; destruct H|]. destruct (dget "in" pol) as [w|] eqn:W.
      * destruct (X1 ltac:(discriminate) w eq_refl) as [_ [Q _]]. subst. destruct H.
      * destruct (W1 ltac:(discriminate) eq_refl) as [_ [Q _]]. subst m1. destruct H as [H|[]]. injection H as H1 H2. subst.
        apply NMAP; [left; reflexivity|exact GI|discriminate|exact W].
    + exists "out". rewrite OP in X2, W2. destruct (pa_out s) as [|y r] eqn:PI; [destruct (E2 eq_refl) as [_ [Q _]]; subst; destruct H|]. destruct (dget "out" pol) as [w|] eqn:W.
      * destruct (X2 ltac:(discriminate) w eq_refl) as [_ [Q _]]. subst. destruct H.
      * destruct (W2 ltac:(discriminate) eq_refl) as [_ [Q _]]. subst m2. destruct H as [H|[]]. injection H as H1 H2. subst.
        apply NMAP; [right; reflexivity|exact GO|discriminate|exact W].
  - intros dir a x G NN. assert (NONE : dget dir pol = None).
    { destruct (dget dir pol) as [w|] eqn:W; [|reflexivity]. exfalso. apply (NN w). apply NU. exact W. }
    assert (DD : dir = "in" \/ dir = "out").
    { destruct G as [v [k [_ [_ [[_ [Q _]]|[[_ [Q _]]|[_ [Q _]]]]]]]]; [left; exact Q|right; exact Q|exact Q]. }
    destruct DD as [Q|Q]; subst dir.
    + apply GI in G. pose proof (NONEMPTY _ _ _ G) as NE. destruct (W1 NE NONE) as [_ [Q _]]. exists (entry (pa_in s)). split; [apply in_or_app; left; rewrite Q; left; reflexivity|].
      apply NMAP; [left; reflexivity|exact GI|exact NE|exact NONE].
    + apply GO in G. pose proof (NONEMPTY _ _ _ G) as NE. rewrite OP in W2. destruct (W2 NE NONE) as [_ [Q _]]. exists (entry (pa_out s)). split; [apply in_or_app; right; rewrite Q; left; reflexivity|].
      apply NMAP; [right; reflexivity|exact GO|exact NE|exact NONE].
  - rewrite orb_true_iff, F, existsb_exists. apply or_compat.
    + split.
      * intros [a [I O]]. destruct (okb_value _ _ _ _ O) as [v V]. exists a, v. split; [exact I|]. apply (okb_spec node ngb). split; assumption.
      * intros [a [v [I AP]]]. exists a. split; [exact I|]. apply (okb_spec node ngb) in AP. apply AP.
    + split.
      * intros H. destruct pol as [|[dir v] r]; [discriminate H|]. exists dir, v. apply NU. cbn [dget]. rewrite String.eqb_refl. reflexivity.
      * intros [dir [v U]]. apply NU in U. destruct pol; [discriminate U|reflexivity].
Qed.

(* ------------------------------------------------------------------ *)
(* Errors                                                               *)

Lemma veqb_in : forall x l, existsb (veqb x) l = true <-> In x l.
Proof.
  intros x l. rewrite existsb_exists. split.
  - intros [y [I E]]. apply Clone_Props.veqb_true in E. subst y. exact I.
  - intros I. exists x. split; [exact I|apply Clone_Props.veqb_true; reflexivity].
Qed.

Lemma direction_spec : forall f a v e, In e (check_direction f a v) <->
  exists kv fd kw x, v = VDict kv /\ f = Some (VDict fd) /\ In (kw, x) kv /\
    ((e = PKey a kw /\ dget kw fd = None) \/ (e = PValue a kw x /\ exists r, dget kw fd = Some r /\ ~ accepts r x)).
Proof.
  intros f a v e. unfold check_direction.
  destruct v as [| | | | |kv]; try (split; [intros []|intros [kv [fd [kw [x [H _]]]]]; discriminate H]).
  destruct f as [[| | | | |fd]|]; try (split; [intros []|intros [kv' [fd [kw [x [_ [H _]]]]]]; discriminate H]).
  rewrite in_flat_map.
  assert (ACC : forall r x, (forall b, r <> VBool b) -> let l := match r with VList l => l | y => [y] end in
    existsb (veqb (VStr (type_name x))) l || existsb (veqb x) l = true <-> accepts r x).
  { intros r x NB. cbv zeta. rewrite orb_true_iff, !veqb_in. destruct r as [|c|z|t|l|q]; cbn [accepts In]; try (exfalso; exact (NB c eq_refl)); try reflexivity.
    - split; [intros [[H|[]]|[H|[]]]; [left|right]; exact H|intros [H|H]; [left; left|right; left]; exact H].
    - split; [intros [[H|[]]|[H|[]]]; [left|right]; exact H|intros [H|H]; [left; left|right; left]; exact H].
    - split; [intros [[H|[]]|[H|[]]]; [left|right]; exact H|intros [H|H]; [left; left|right; left]; exact H].
    - split; [intros [[H|[]]|[H|[]]]; [left|right]; exact H|intros [H|H]; [left; left|right; left]; exact H]. }
  split.
  - intros [[kw x] [I H]]. exists kv, fd, kw, x. split; [reflexivity|]. split; [reflexivity|]. split; [exact I|]. destruct (dget kw fd) as [r|] eqn:R.
    + right. assert (NB : forall c, r <> VBool c) by (intros c Q; subst r; destruct H). specialize (ACC r x NB). cbv zeta in ACC.
      assert (K : e = PValue a kw x /\ ~ accepts r x).
      { rewrite <- ACC. destruct r as [|c|z|t|l|q]; try (exfalso; exact (NB c eq_refl));
          (match type of H with In _ (if ?c then _ else _) => destruct c eqn:C end; [destruct H|destruct H as [H|[]]; split; [symmetry; exact H|]; discriminate]). }
      destruct K as [K1 K2]. split; [exact K1|]. exists r. split; [reflexivity|exact K2].
    + destruct H as [H|[]]. left. split; [symmetry; exact H|reflexivity].
  - intros [kv' [fd' [kw [x [E1 [E2 [I H]]]]]]]. injection E1 as E1. injection E2 as E2. subst kv' fd'. exists (kw, x). split; [exact I|].
    destruct H as [[E D]|[E [r [D N]]]]; rewrite D; [left; symmetry; exact E|].
    assert (NB : forall c, r <> VBool c) by (intros c Q; subst r; apply N; exact Logic.I). specialize (ACC r x NB). cbv zeta in ACC. rewrite <- ACC in N.
    destruct r as [|c|z|t|l|q]; try (exfalso; exact (NB c eq_refl));
      (match goal with |- In _ (if ?c then _ else _) => destruct c end; [exfalso; apply N; reflexivity|left; symmetry; exact E]).
Qed.

Lemma err_spec : forall node ngb lp b a e, In a attrs -> (In e (err_of node ngb (norm lp b) a) <->
  (exists v, effective lp b a v /\
     ((e = PSupport (Sess_Model.ESupport node a ngb) /\ (forall f, feat node a = Some f -> truthy f = false)) \/
      (e = PSupport (Sess_Model.EProvider node a) /\ exists l, feat node a = Some (VList l) /\ l <> [] /\ ~ In (VStr provider) l))) \/
  (exists v kv fd kw x, applied node lp b a v /\ dget a compound <> None /\ v = VDict kv /\ feat node a = Some (VDict fd) /\ In (kw, x) kv /\
     ((e = PKey a kw /\ dget kw fd = None) \/ (e = PValue a kw x /\ exists r, dget kw fd = Some r /\ ~ accepts r x)))).
Proof.
  intros node ngb lp b a e IA. unfold err_of, applied.
  assert (EF : forall v, effective lp b a v <-> dget a (norm lp b) = Some v /\ truthy v = true) by (intros v; symmetry; apply norm_effective).
  destruct (dget a (norm lp b)) as [v|].
  2:{ split; [intros []|]. intros [[v [H _]]|[v [kv [fd [kw [x [[_ [H _]] _]]]]]]]; apply EF in H; destruct H as [H _]; discriminate H. }
  destruct (truthy v) eqn:T.
  2:{ split; [intros []|]. intros [[w [H _]]|[w [kv [fd [kw [x [[_ [H _]] _]]]]]]]; apply EF in H; destruct H as [H H']; injection H as H; subst w; rewrite T in H'; discriminate H'. }
  assert (EV : effective lp b a v) by (apply EF; split; [reflexivity|exact T]).
  assert (UN : forall w, effective lp b a w -> w = v) by (intros w W; apply EF in W; destruct W as [W _]; injection W as W; symmetry; exact W).
  pose proof (support_spec node a ngb) as SP. pose proof (support_error node a ngb) as SE.
  destruct (Sess_Model.check_support feat provider node a ngb) as [|y r].
  - assert (SU : supported node a) by (apply SP; reflexivity). split.
    + intros H. right. destruct (dget a compound) as [k|] eqn:K; [|destruct H]. apply direction_spec in H. destruct H as [kv [fd [kw [x [E1 [E2 [I H]]]]]]].
      exists v, kv, fd, kw, x. split; [split; [exact IA|split; [exact EV|exact SU]]|]. split; [discriminate|]. repeat split; assumption.
    + intros [[w [_ H]]|[w [kv [fd [kw [x [[_ [W _]] [K [E1 [E2 [I H]]]]]]]]]]].
      * exfalso. destruct H as [[_ H]|[_ H]].
        -- apply (SE (Sess_Model.ESupport node a ngb)). left. split; [reflexivity|exact H].
        -- apply (SE (Sess_Model.EProvider node a)). right. split; [reflexivity|exact H].
      * apply UN in W. subst w. destruct (dget a compound) as [k|]; [|exfalso; apply K; reflexivity]. apply direction_spec. exists kv, fd, kw, x. repeat split; assumption.
  - split.
    + intros H. left. apply in_map_iff in H. destruct H as [q [Q I]]. exists v. split; [exact EV|]. apply SE in I. subst e. destruct I as [[I1 I2]|[I1 I2]]; subst q; [left|right]; (split; [reflexivity|exact I2]).
    + intros [[w [_ H]]|[w [kv [fd [kw [x [[_ [_ S]] _]]]]]]].
      * apply in_map_iff. destruct H as [[Q H]|[Q H]]; subst e; eexists; (split; [reflexivity|]); apply SE; [left|right]; (split; [reflexivity|exact H]).
      * apply SP in S. discriminate S.
Qed.

Theorem policy_errors_exact : forall node lp routing idx i d e,
  In e (po_err (policy_one feat provider direct compound bad node lp routing idx i d)) <->
  policy_error node lp routing idx i (Sess_Model.str_of "name" d) e.
Proof.
  intros node lp routing idx i d e. unfold policy_one, policy_error. set (ngb := Sess_Model.str_of "name" d). set (b := pi_bgp i) in *.
  change (attr_list direct compound) with attrs. fold (norm lp b).
  set (d0 := fold_left (fun d a => dpop a d) (attrs ++ ["policy"]) d).
  destruct (apply_all node ngb (norm lp b) attrs d0) as [_ [B [C [D _]]]].
  set (s := fold_left (apply_attr feat provider compound node ngb (norm lp b)) attrs (mk_pa d0 [] [] [] false)) in *. clearbody s. clear d0.
  pose proof (fun dir v => named_spec routing idx (norm lp b) dir v) as NM.
  set (pol := named bad routing idx (norm lp b)) in *. clearbody pol.
  assert (NU : forall dir v, dget dir pol = Some v <-> uses routing idx b dir v).
  { intros dir v. rewrite NM. unfold uses, wants. rewrite norm_policy. reflexivity. }
  clear NM.
  assert (GI : forall a x, dget a (pa_in s) = Some x <-> goes node lp b "in" a x) by (intros a x; rewrite B; apply gives_spec; left; reflexivity).
  assert (GO : forall a x, dget a (pa_out s) = Some x <-> goes node lp b "out" a x) by (intros a x; rewrite C; apply gives_spec; right; reflexivity).
  destruct (create_policy i ngb idx "in" (pa_in s) pol) as [[p1 m1] e1] eqn:C1. destruct (create_policy i ngb idx "out" (pa_out s) p1) as [[p2 m2] e2] eqn:C2.
  apply create_spec in C1. destruct C1 as [O1 [E1 [X1 W1]]]. apply create_spec in C2. destruct C2 as [O2 [E2 [X2 W2]]].
  assert (OP : dget "out" p1 = dget "out" pol) by (apply O1; discriminate). rewrite OP in X2, W2.
  cbn [po_err]. rewrite !in_app_iff, D, in_flat_map. clear D B C.
  assert (R : In e (named_error routing (norm lp b)) <-> e = PRouting /\ routing = false /\ exists dir v, (dir = "in" \/ dir = "out") /\ wants b dir v).
  { unfold named_error, wants. rewrite norm_policy. destruct (dget "policy" b) as [[| | | | |p]|];
      try (split; [intros []|intros [_ [_ [dir [v [_ [q [H _]]]]]]]; discriminate H]).
    destruct routing; cbn [negb andb]; [split; [intros []|intros [_ [H _]]; discriminate H]|]. unfold dmem.
    destruct (dget "in" p) as [w|] eqn:I.
    - split; [|intros [H _]; left; symmetry; exact H]. intros [H|[]]. split; [symmetry; exact H|]. split; [reflexivity|]. exists "in", w. split; [left; reflexivity|].
      exists p. split; [reflexivity|exact I].
    - destruct (dget "out" p) as [w|] eqn:O; cbn [orb].
      + split; [|intros [H _]; left; symmetry; exact H]. intros [H|[]]. split; [symmetry; exact H|]. split; [reflexivity|]. exists "out", w. split; [right; reflexivity|].
        exists p. split; [reflexivity|exact O].
      + split; [intros []|]. intros [_ [_ [dir [v [DD [q [Q H]]]]]]]. injection Q as Q. subst q. destruct DD as [DD|DD]; subst dir; [rewrite I in H|rewrite O in H]; discriminate H. }
  rewrite R. clear R. apply or_compat; [reflexivity|].
  assert (MI : In e e1 \/ In e e2 <-> exists dir a x v, e = PMix ngb dir /\ goes node lp b dir a x /\ uses routing idx b dir v).
  { split.
    - intros [H|H].
      + destruct (pa_in s) as [|[a x] r] eqn:PI; [destruct (E1 eq_refl) as [_ [_ Q]]; subst; destruct H|]. destruct (dget "in" pol) as [w|] eqn:W.
        * destruct (X1 ltac:(discriminate) w eq_refl) as [_ [_ Q]]. subst e1. destruct H as [H|[]]. exists "in", a, x, w. split; [symmetry; exact H|].
          split; [apply GI; cbn [dget]; rewrite String.eqb_refl; reflexivity|apply NU; exact W].
        * destruct (W1 ltac:(discriminate) eq_refl) as [_ [_ Q]]. subst. destruct H.
      + destruct (pa_out s) as [|[a x] r] eqn:PI; [destruct (E2 eq_refl) as [_ [_ Q]]; subst; destruct H|]. destruct (dget "out" pol) as [w|] eqn:W.
        * destruct (X2 ltac:(discriminate) w eq_refl) as [_ [_ Q]]. subst e2. destruct H as [H|[]]. exists "out", a, x, w. split; [symmetry; exact H|].
          split; [apply GO; cbn [dget]; rewrite String.eqb_refl; reflexivity|apply NU; exact W].
        * destruct (W2 ltac:(discriminate) eq_refl) as [_ [_ Q]]. subst. destruct H.
    - intros [dir [a [x [v [E [G U]]]]]]. pose proof U as [[Q|Q] _]; subst dir; apply NU in U.
      + left. apply GI in G. assert (NE : pa_in s <> []) by (intros Q; rewrite Q in G; discriminate G). destruct (X1 NE v U) as [_ [_ Q]]. subst e1. left. symmetry. exact E.
      + right. apply GO in G. assert (NE : pa_out s <> []) by (intros Q; rewrite Q in G; discriminate G). destruct (X2 NE v U) as [_ [_ Q]]. subst e2. left. symmetry. exact E. }
  rewrite MI. clear MI. rewrite <- or_assoc. apply or_compat; [|reflexivity]. split.
  - intros [a [I H]]. apply err_spec in H; [|exact I]. destruct H as [[v [H1 H2]]|H]; [left; exists a, v; split; [exact I|split; assumption]|right; exists a; exact H].
  - intros [[a [v [I [H1 H2]]]]|[a [v [kv [fd [kw [x [[I AP] H]]]]]]]].
    + exists a. split; [exact I|]. apply err_spec; [exact I|]. left. exists v. split; assumption.
    + exists a. split; [exact I|]. apply err_spec; [exact I|]. right. exists v, kv, fd, kw, x. split; [split; assumption|exact H].
Qed.

(* ------------------------------------------------------------------ *)
(* Names of route maps                                                  *)

Theorem map_name_unique : forall i ngb idx dir i' ngb' idx' dir', (0 <= idx)%Z -> (0 <= idx')%Z ->
  (dir = "in" \/ dir = "out") -> (dir' = "in" \/ dir' = "out") ->
  map_name i ngb idx dir = map_name i' ngb' idx' dir' -> idx = idx' /\ dir = dir'.
Proof.
  assert (F : forall i ngb idx dir, map_name i ngb idx dir =
    ((("bp-" ++ (match pi_vrf i with Some v => "vrf-" ++ v ++ "-" | None => "" end) ++ ngb) ++ String "-" (Vrf_Model.zdec idx)) ++ String "-" dir)%string).
  { intros i ngb idx dir. unfold map_name. rewrite !Text_Props.append_assoc. reflexivity. }
  assert (ND : forall dir, dir = "in" \/ dir = "out" -> Text_Props.no_char "-" dir).
  { intros dir [Q|Q]; subst dir; repeat (apply Text_Props.no_char_cons; split; [discriminate|]); intros H; exact H. }
  assert (NZ : forall z, (0 <= z)%Z -> Text_Props.no_char "-" (Vrf_Model.zdec z)).
  { intros z Z. apply Types_Props.digits_no; [reflexivity|]. apply Version_Props.zdec_digits. exact Z. }
  intros i ngb idx dir i' ngb' idx' dir' Z Z' D D' H. rewrite !F in H. apply Clone2_Props.last_dash in H; [|apply ND; exact D|apply ND; exact D'].
  destruct H as [H E]. apply Clone2_Props.last_dash in H; [|apply NZ; exact Z|apply NZ; exact Z']. destruct H as [_ H]. apply Vrf_Props.zdec_inj in H. split; assumption.
Qed.

(* ------------------------------------------------------------------ *)
(* All neighbors of a node                                              *)

(* the node has the routing module when neighbor [k] is processed: configured, or added for an earlier neighbor *)
Definition routing_at (node : string) (lp : option val) (ms : list string) (l : list (pintf * dict val)) (k : nat) : Prop :=
  In "routing" ms \/ exists j i d dir a x, j < k /\ nth_error l j = Some (i, d) /\ goes node lp (pi_bgp i) dir a x.

(* neighbor [k] and the presence of the routing module *)
Definition turn (node : string) (lp : option val) (ms : list string) (l : list (pintf * dict val)) (k : nat) (i : pintf) (d : dict val) (r : bool) : Prop :=
  nth_error l k = Some (i, d) /\ (r = true <-> routing_at node lp ms l k).

Definition needs_config (node : string) (lp : option val) (r : bool) (idx : Z) (i : pintf) : Prop :=
  (exists a v, applied node lp (pi_bgp i) a v) \/ (exists dir v, uses r idx (pi_bgp i) dir v).

Lemma turn_0 : forall node lp ms x l i d r, turn node lp ms (x :: l) 0 i d r <-> x = (i, d) /\ r = memS "routing" ms.
Proof.
  intros node lp ms x l i d r. unfold turn, routing_at. cbn [nth_error]. split.
  - intros [E H]. injection E as E. split; [exact E|]. apply eq_true_iff_eq. rewrite H, memS_true. split.
    + intros [K|[j [i' [d' [dir [a [y [K _]]]]]]]]; [exact K|lia].
    + intros K. left. exact K.
  - intros [E H]. subst. split; [reflexivity|]. rewrite memS_true. split.
    + intros K. left. exact K.
    + intros [K|[j [i' [d' [dir [a [y [K _]]]]]]]]; [exact K|lia].
Qed.

Lemma routing_S : forall node lp ms ms1 i d l, (In "routing" ms1 <-> In "routing" ms \/ exists dir a x, goes node lp (pi_bgp i) dir a x) ->
  forall k, routing_at node lp ms1 l k <-> routing_at node lp ms ((i, d) :: l) (S k).
Proof.
  intros node lp ms ms1 i d l R k. unfold routing_at. rewrite R. split.
  - intros [[H|[dir [a [x H]]]]|[j [i' [d' [dir [a [x [L [N G]]]]]]]]].
    + left. exact H.
    + right. exists 0, i, d, dir, a, x. split; [lia|]. split; [reflexivity|exact H].
    + right. exists (S j), i', d', dir, a, x. split; [lia|]. split; [exact N|exact G].
  - intros [H|[[|j] [i' [d' [dir [a [x [L [N G]]]]]]]]].
    + left. left. exact H.
    + cbn [nth_error] in N. injection N as N1 N2. subst i' d'. left. right. exists dir, a, x. exact G.
    + right. exists j, i', d', dir, a, x. split; [lia|]. split; [exact N|exact G].
Qed.

Lemma turn_ex : forall node lp ms ms1 i d l (P : Z -> pintf -> dict val -> bool -> Prop) idx,
  (In "routing" ms1 <-> In "routing" ms \/ exists dir a x, goes node lp (pi_bgp i) dir a x) ->
  ((exists k i' d' r, turn node lp ms ((i, d) :: l) k i' d' r /\ P (idx + Z.of_nat k)%Z i' d' r) <->
   P idx i d (memS "routing" ms) \/ (exists k i' d' r, turn node lp ms1 l k i' d' r /\ P (idx + 1 + Z.of_nat k)%Z i' d' r)).
Proof.
  intros node lp ms ms1 i d l P idx R. pose proof (routing_S node lp ms ms1 i d l R) as S1. split.
  - intros [[|k] [i' [d' [r [T H]]]]].
    + apply turn_0 in T. destruct T as [E1 E2]. injection E1 as E1 E3. subst. replace (idx + Z.of_nat 0)%Z with idx in H by lia. left. exact H.
    + right. exists k, i', d', r. split; [destruct T as [T1 T2]; split; [exact T1|rewrite S1; exact T2]|]. replace (idx + 1 + Z.of_nat k)%Z with (idx + Z.of_nat (S k))%Z by lia. exact H.
  - intros [H|[k [i' [d' [r [[T1 T2] H]]]]]].
    + exists 0, i, d, (memS "routing" ms). split; [apply turn_0; split; reflexivity|]. replace (idx + Z.of_nat 0)%Z with idx by lia. exact H.
    + exists (S k), i', d', r. split; [split; [exact T1|rewrite <- S1; exact T2]|]. replace (idx + Z.of_nat (S k))%Z with (idx + 1 + Z.of_nat k)%Z by lia. exact H.
Qed.

Lemma step_routing : forall node lp idx i d st, ~ In "policy" attrs ->
  let st1 := fst (policy_step feat provider direct compound bad node lp idx i d st) in
  (In "routing" (ps_module st1) <-> In "routing" (ps_module st) \/ exists dir a x, goes node lp (pi_bgp i) dir a x) /\
  (forall m, m <> "routing" -> (In m (ps_module st1) <-> In m (ps_module st))).
Proof.
  intros node lp idx i d st NP. cbv zeta. unfold policy_step. cbn [fst ps_module].
  destruct (policy_neighbor_exact node lp (memS "routing" (ps_module st)) idx i d NP) as [_ [_ [_ [M1 [M2 _]]]]]. cbv zeta in M1, M2.
  set (o := policy_one feat provider direct compound bad node lp (memS "routing" (ps_module st)) idx i d) in *. clearbody o.
  set (ms := ps_module st) in *. clearbody ms. split.
  - destruct (po_maps o) as [|[name e] r] eqn:PM.
    + split; [intros H; left; exact H|]. intros [H|[dir [a [x G]]]]; [exact H|]. destruct (memS "routing" ms) eqn:M; [apply memS_true; exact M|].
      exfalso. destruct (M2 dir a x G) as [e [H _]]; [intros v [_ [H _]]; discriminate H|]. destruct H.
    + assert (G : exists dir a x, goes node lp (pi_bgp i) dir a x).
      { destruct (M1 name e) as [dir [_ [_ [_ [set [NE [G _]]]]]]]; [left; reflexivity|]. destruct set as [|[a x] set]; [exfalso; apply NE; reflexivity|].
        exists dir, a, x. apply G. cbn [dget]. rewrite String.eqb_refl. reflexivity. }
      split; [intros _; right; exact G|]. intros _. destruct (memS "routing" ms) eqn:M; [apply memS_true; exact M|]. apply in_or_app. right. left. reflexivity.
  - intros m NM. destruct (po_maps o); [reflexivity|]. destruct (memS "routing" ms); [reflexivity|]. rewrite in_app_iff. cbn [In]. split.
    + intros [H|[H|[]]]; [exact H|exfalso; apply NM; symmetry; exact H].
    + intros H. left. exact H.
Qed.

Theorem policy_node_exact : forall node lp l idx st st' ds, ~ In "policy" attrs ->
  policy_loop feat provider direct compound bad node lp idx l st = (st', ds) ->
  (* neighbors *)
  (forall k i d r, turn node lp (ps_module st) l k i d r ->
     nth_error ds k = Some (po_d (policy_one feat provider direct compound bad node lp r (idx + Z.of_nat k) i d))) /\ length ds = length l /\
  (* modules *)
  (In "routing" (ps_module st') <-> routing_at node lp (ps_module st) l (length l)) /\
  (forall m, m <> "routing" -> (In m (ps_module st') <-> In m (ps_module st))) /\
  (* errors, configuration *)
  (forall e, In e (ps_err st') <-> In e (ps_err st) \/
     exists k i d r, turn node lp (ps_module st) l k i d r /\ policy_error node lp r (idx + Z.of_nat k) i (Sess_Model.str_of "name" d) e) /\
  (ps_config st' = true <-> ps_config st = true \/
     exists k i d r, turn node lp (ps_module st) l k i d r /\ needs_config node lp r (idx + Z.of_nat k) i).
Proof.
  intros node lp l. induction l as [|[i d] l IH]; intros idx st st' ds NP H; cbn [policy_loop] in H.
  - injection H as H1 H2. subst. assert (NT : forall k i d r, ~ turn node lp (ps_module st') [] k i d r).
    { intros k i d r [T _]. destruct k; discriminate T. }
    split; [intros k i d r T; exfalso; exact (NT k i d r T)|]. split; [reflexivity|]. split.
    + unfold routing_at. split; [intros K; left; exact K|]. intros [K|[j [i [d [dir [a [x [L _]]]]]]]]; [exact K|cbn [length] in L; lia].
    + split; [reflexivity|]. split.
      * intros e. split; [intros K; left; exact K|]. intros [K|[k [i [d [r [T _]]]]]]; [exact K|exfalso; exact (NT k i d r T)].
      * split; [intros K; left; exact K|]. intros [K|[k [i [d [r [T _]]]]]]; [exact K|exfalso; exact (NT k i d r T)].
  - pose proof (step_routing node lp idx i d st NP) as [R RO]. cbv zeta in R, RO.
    assert (ERR : forall e, In e (ps_err (fst (policy_step feat provider direct compound bad node lp idx i d st))) <->
       In e (ps_err st) \/ policy_error node lp (memS "routing" (ps_module st)) idx i (Sess_Model.str_of "name" d) e).
    { intros e. unfold policy_step. cbn [fst ps_err]. rewrite in_app_iff, policy_errors_exact. reflexivity. }
    assert (CF : ps_config (fst (policy_step feat provider direct compound bad node lp idx i d st)) = true <->
       ps_config st = true \/ needs_config node lp (memS "routing" (ps_module st)) idx i).
    { unfold policy_step. cbn [fst ps_config]. rewrite orb_true_iff.
      destruct (policy_neighbor_exact node lp (memS "routing" (ps_module st)) idx i d NP) as [_ [_ [_ [_ [_ U]]]]]. cbv zeta in U. rewrite U. reflexivity. }
    assert (DD : snd (policy_step feat provider direct compound bad node lp idx i d st) =
       po_d (policy_one feat provider direct compound bad node lp (memS "routing" (ps_module st)) idx i d)) by reflexivity.
    destruct (policy_step feat provider direct compound bad node lp idx i d st) as [st1 d1]. cbn [fst snd] in R, RO, ERR, CF, DD.
    destruct (policy_loop feat provider direct compound bad node lp (idx + 1) l st1) as [st2 r2] eqn:PL. injection H as H1 H2. subst st' ds.
    destruct (IH (idx + 1)%Z st1 st2 r2 NP PL) as [A [B [C [D [E F]]]]].
    pose proof (routing_S node lp (ps_module st) (ps_module st1) i d l R) as S1.
    split; [|split; [|split; [|split; [|split]]]].
    + intros [|k] i' d' r T.
      * apply turn_0 in T. destruct T as [E1 E2]. injection E1 as E1 E3. subst i' d' r. cbn [nth_error]. rewrite DD. replace (idx + Z.of_nat 0)%Z with idx by lia. reflexivity.
      * cbn [nth_error]. rewrite (A k i' d' r).
        -- replace (idx + 1 + Z.of_nat k)%Z with (idx + Z.of_nat (S k))%Z by lia. reflexivity.
        -- destruct T as [T1 T2]. split; [exact T1|rewrite S1; exact T2].
    + cbn [length]. rewrite B. reflexivity.
    + rewrite C. apply S1.
    + intros m NM. rewrite (D m NM). apply RO. exact NM.
    + intros e. rewrite E, ERR. rewrite (turn_ex node lp (ps_module st) (ps_module st1) i d l
        (fun z i d r => policy_error node lp r z i (Sess_Model.str_of "name" d) e) idx R). rewrite or_assoc. reflexivity.
    + rewrite F, CF. rewrite (turn_ex node lp (ps_module st) (ps_module st1) i d l (fun z i d r => needs_config node lp r z i) idx R). rewrite or_assoc. reflexivity.
Qed.

(* route maps *)
Definition creates (node : string) (lp : option val) (ms : list string) (l : list (pintf * dict val)) (idx : Z) (name : string) (e : val) : Prop :=
  exists k i d r, turn node lp ms l k i d r /\ exists dir, new_map node lp r (idx + Z.of_nat k) i (Sess_Model.str_of "name" d) dir name e.

Lemma dset_all : forall (l : list (string * val)) m name,
  dget name (fold_left (fun m x => dset (fst x) (snd x) m) l m) =
  match dget name (rev l) with Some e => Some e | None => dget name m end.
Proof.
  intros l m name. induction l as [|[k v] l IH] using rev_ind; [reflexivity|]. rewrite fold_left_app, rev_app_distr. cbn [fold_left rev app dget fst snd].
  destruct (String.eqb_spec name k) as [Q|Q]; [subst; apply dget_dset_same|]. rewrite dget_dset_other by exact Q. exact IH.
Qed.

Theorem policy_maps_exact : forall node lp l idx st st' ds, ~ In "policy" attrs -> (0 <= idx)%Z ->
  policy_loop feat provider direct compound bad node lp idx l st = (st', ds) ->
  forall name,
  (forall e, creates node lp (ps_module st) l idx name e -> exists e', dget name (ps_maps st') = Some e' /\ creates node lp (ps_module st) l idx name e') /\
  (forall e, dget name (ps_maps st') = Some e -> creates node lp (ps_module st) l idx name e \/ dget name (ps_maps st) = Some e) /\
  ((forall e, ~ creates node lp (ps_module st) l idx name e) -> dget name (ps_maps st') = dget name (ps_maps st)).
Proof.
  intros node lp l. induction l as [|[i d] l IH]; intros idx st st' ds NP Z0 H name; cbn [policy_loop] in H.
  - injection H as H1 H2. subst. split; [|split].
    + intros e [k [i [d [r [[T _] _]]]]]. destruct k; discriminate T.
    + intros e K. right. exact K.
    + reflexivity.
  - pose proof (step_routing node lp idx i d st NP) as [R _]. cbv zeta in R.
    set (P := fun e z i d r => exists dir, new_map node lp r z i (Sess_Model.str_of "name" d) dir name e).
    assert (MP : (forall e, P e idx i d (memS "routing" (ps_module st)) -> exists e', dget name (ps_maps (fst (policy_step feat provider direct compound bad node lp idx i d st))) = Some e' /\ P e' idx i d (memS "routing" (ps_module st))) /\
      (forall e, dget name (ps_maps (fst (policy_step feat provider direct compound bad node lp idx i d st))) = Some e -> P e idx i d (memS "routing" (ps_module st)) \/ dget name (ps_maps st) = Some e) /\
      ((forall e, ~ P e idx i d (memS "routing" (ps_module st))) -> dget name (ps_maps (fst (policy_step feat provider direct compound bad node lp idx i d st))) = dget name (ps_maps st))).
    { unfold policy_step. cbn [fst ps_maps]. destruct (policy_neighbor_exact node lp (memS "routing" (ps_module st)) idx i d NP) as [_ [_ [_ [M1 [M2 _]]]]]. cbv zeta in M1, M2.
      set (o := policy_one feat provider direct compound bad node lp (memS "routing" (ps_module st)) idx i d) in *. clearbody o. rewrite dset_all.
      destruct (dget name (rev (po_maps o))) as [w|] eqn:W.
      - assert (N : P w idx i d (memS "routing" (ps_module st))).
        { apply dget_In in W. apply in_rev in W. apply M1 in W. exact W. }
        split; [intros e _; exists w; split; [reflexivity|exact N]|]. split; [intros e E; injection E as E; subst e; left; exact N|]. intros K. exfalso. exact (K w N).
      - split; [|split; [intros e E; right; exact E|reflexivity]]. intros e [dir NM]. exfalso. pose proof NM as [_ [NU [EN [set [NE [G _]]]]]].
        destruct set as [|[a x] set]; [apply NE; reflexivity|]. destruct (M2 dir a x) as [e' [I _]]; [apply G; cbn [dget]; rewrite String.eqb_refl; reflexivity|exact NU|].
        rewrite <- EN in I. apply in_rev in I. apply dget_None in W. apply W. apply in_map_iff. exists (name, e'). split; [reflexivity|exact I]. }
    assert (SEP : forall k i' d' r' r e e', P e idx i d r -> P e' (idx + 1 + Z.of_nat k)%Z i' d' r' -> False).
    { intros k i' d' r' r e e' [dir [D1 [_ [E1 _]]]] [dir' [D2 [_ [E2 _]]]]. rewrite E1 in E2. apply map_name_unique in E2; [|lia|lia|exact D1|exact D2]. lia. }
    destruct (policy_step feat provider direct compound bad node lp idx i d st) as [st1 d1]. cbn [fst] in R, MP.
    destruct (policy_loop feat provider direct compound bad node lp (idx + 1) l st1) as [st2 r2] eqn:PL. injection H as H1 H2. subst st' ds.
    destruct (IH (idx + 1)%Z st1 st2 r2 NP ltac:(lia) PL name) as [A [B C]]. destruct MP as [MA [MB MC]].
    assert (CR : forall e, creates node lp (ps_module st) ((i, d) :: l) idx name e <-> P e idx i d (memS "routing" (ps_module st)) \/ creates node lp (ps_module st1) l (idx + 1) name e).
    { intros e. unfold creates. apply (turn_ex node lp (ps_module st) (ps_module st1) i d l (P e) idx R). }
    split; [|split].
    + intros e H. apply CR in H. destruct H as [H|H].
      * assert (NC : forall e, ~ creates node lp (ps_module st1) l (idx + 1) name e).
        { intros e' [k [i' [d' [r' [_ K]]]]]. exact (SEP k i' d' r' _ e e' H K). }
        destruct (MA e H) as [e' [E1 E2]]. exists e'. split; [rewrite (C NC); exact E1|]. apply CR. left. exact E2.
      * destruct (A e H) as [e' [E1 E2]]. exists e'. split; [exact E1|]. apply CR. right. exact E2.
    + intros e H. destruct (B e H) as [K|K]; [left; apply CR; right; exact K|]. destruct (MB e K) as [K2|K2]; [left; apply CR; left; exact K2|right; exact K2].
    + intros K. rewrite C, MC; [reflexivity| |].
      * intros e H. apply (K e). apply CR. left. exact H.
      * intros e H. apply (K e). apply CR. right. exact H.
Qed.

(* sessions to clear *)
Theorem policy_clear_exact : forall node lp l idx st st' ds, ~ In "policy" attrs -> ~ In "ipv4" attrs -> ~ In "ipv6" attrs ->
  policy_loop feat provider direct compound bad node lp idx l st = (st', ds) ->
  forall v, In v (ps_clear st') <-> In v (ps_clear st) \/
    exists k i d r, turn node lp (ps_module st) l k i d r /\ needs_config node lp r (idx + Z.of_nat k) i /\ (dget "ipv4" d = Some v \/ dget "ipv6" d = Some v).
Proof.
  intros node lp l. induction l as [|[i d] l IH]; intros idx st st' ds NP N4 N6 H v; cbn [policy_loop] in H.
  - injection H as H1 H2. subst. split; [intros K; left; exact K|]. intros [K|[k [i [d [r [[T _] _]]]]]]; [exact K|destruct k; discriminate T].
  - pose proof (step_routing node lp idx i d st NP) as [R _]. cbv zeta in R.
    assert (CL : In v (ps_clear (fst (policy_step feat provider direct compound bad node lp idx i d st))) <->
       In v (ps_clear st) \/ needs_config node lp (memS "routing" (ps_module st)) idx i /\ (dget "ipv4" d = Some v \/ dget "ipv6" d = Some v)).
    { unfold policy_step. cbn [fst ps_clear].
      destruct (policy_neighbor_exact node lp (memS "routing" (ps_module st)) idx i d NP) as [_ [O [_ [_ [_ U]]]]]. cbv zeta in O, U. unfold needs_config. rewrite <- U.
      assert (O4 := O "ipv4" N4 ltac:(discriminate)). assert (O6 := O "ipv6" N6 ltac:(discriminate)).
      set (o := policy_one feat provider direct compound bad node lp (memS "routing" (ps_module st)) idx i d) in *. clearbody o.
      destruct (po_used o); [|split; [intros K; left; exact K|intros [K|[K _]]; [exact K|discriminate K]]].
      unfold Sess_Model.clear_sessions. cbn [fold_left]. rewrite O4, O6.
      assert (AI : forall q w, In v (Sess_Model.append_item q w) <-> In v q \/ v = w).
      { intros q w. unfold Sess_Model.append_item. destruct (existsb (veqb w) q) eqn:X.
        - apply veqb_in in X. split; [intros K; left; exact K|intros [K|K]; [exact K|subst; exact X]].
        - rewrite in_app_iff. cbn [In]. split; [intros [K|[K|[]]]; [left; exact K|right; symmetry; exact K]|intros [K|K]; [left; exact K|right; left; symmetry; exact K]]. }
      destruct (dget "ipv4" d) as [w4|]; destruct (dget "ipv6" d) as [w6|]; rewrite ?AI.
      - split; [intros [[K|K]|K]; [left; exact K|right; split; [reflexivity|left; subst; reflexivity]|right; split; [reflexivity|right; subst; reflexivity]]|].
        intros [K|[_ [K|K]]]; [left; left; exact K|injection K as K; left; right; symmetry; exact K|injection K as K; right; symmetry; exact K].
      - split; [intros [K|K]; [left; exact K|right; split; [reflexivity|left; subst; reflexivity]]|].
        intros [K|[_ [K|K]]]; [left; exact K|injection K as K; right; symmetry; exact K|discriminate K].
      - split; [intros [K|K]; [left; exact K|right; split; [reflexivity|right; subst; reflexivity]]|].
        intros [K|[_ [K|K]]]; [left; exact K|discriminate K|injection K as K; right; symmetry; exact K].
      - split; [intros K; left; exact K|]. intros [K|[_ [K|K]]]; [exact K|discriminate K|discriminate K]. }
    destruct (policy_step feat provider direct compound bad node lp idx i d st) as [st1 d1]. cbn [fst] in R, CL.
    destruct (policy_loop feat provider direct compound bad node lp (idx + 1) l st1) as [st2 r2] eqn:PL. injection H as H1 H2. subst st' ds.
    rewrite (IH (idx + 1)%Z st1 st2 r2 NP N4 N6 PL v), CL.
    rewrite (turn_ex node lp (ps_module st) (ps_module st1) i d l (fun z i d r => needs_config node lp r z i /\ (dget "ipv4" d = Some v \/ dget "ipv6" d = Some v)) idx R).
    rewrite or_assoc. reflexivity.
Qed.
End Spec.

(* ------------------------------------------------------------------ *)
(* Local preference of a node, extended communities                     *)

Theorem node_locpref_exact : forall default nb b v,
  effective (locpref_to_copy default nb) b "locpref" v <->
  truthy v = true /\
  (dget "locpref" b = Some v \/
   ((forall x, dget "locpref" b = Some x -> truthy x = false) /\ dget "locpref" nb = Some v /\ (forall f, default = Some f -> truthy f = false))).
Proof.
  intros default nb b v. unfold effective.
  assert (L : locpref_to_copy default nb = Some v <-> dget "locpref" nb = Some v /\ (forall f, default = Some f -> truthy f = false)).
  { unfold locpref_to_copy. destruct default as [f|].
    - destruct (truthy f) eqn:T.
      + split; [discriminate|]. intros [_ H]. rewrite (H f eq_refl) in T. discriminate T.
      + split; [intros H; split; [exact H|]; intros g G; injection G as G; subst g; exact T|intros [H _]; exact H].
    - split; [intros H; split; [exact H|]; intros g G; discriminate G|intros [H _]; exact H]. }
  split.
  - intros [T [[_ [H|[H1 H2]]]|[[H _]|[H _]]]]; [| |discriminate H|exfalso; apply H; reflexivity]; (split; [exact T|]); [left; exact H|]. right. split; [exact H1|]. apply L. exact H2.
  - intros [T [H|[H1 H2]]]; (split; [exact T|]); left; (split; [reflexivity|]); [left; exact H|]. right. split; [exact H1|]. apply L. exact H2.
Qed.

Theorem extended_communities_exact : forall b l l', extend_communities b (Some l) = Some l' -> NoDup l ->
  NoDup l' /\ forall c, In c l' <-> In c l \/ (c = "extended" /\ exists kv, dget "bandwidth" b = Some (VDict kv) /\ dget "out" kv <> None).
Proof.
  intros b l l' H ND. unfold extend_communities in H.
  assert (SAME : forall P : Prop, ~ P -> NoDup l /\ forall c, In c l <-> In c l \/ (c = "extended" /\ P)).
  { intros P NP. split; [exact ND|]. intros c. split; [intros K; left; exact K|intros [K|[_ K]]; [exact K|contradiction]]. }
  destruct (dget "bandwidth" b) as [[| | | | |kv]|]; try (injection H as H; subst l'; apply SAME; intros [kv [Q _]]; discriminate Q).
  unfold dmem in H. destruct (dget "out" kv) as [w|] eqn:W.
  2:{ rewrite andb_false_r in H. injection H as H. subst l'. apply SAME. intros [q [Q K]]. injection Q as Q. subst q. apply K. exact W. }
  assert (T : truthy (VDict kv) = true) by (destruct kv; [discriminate W|reflexivity]). rewrite T in H. cbn [andb] in H.
  assert (EX : exists q, Some (VDict kv) = Some (VDict q) /\ dget "out" q <> None) by (exists kv; split; [reflexivity|rewrite W; discriminate]).
  destruct (memS "extended" l) eqn:M; injection H as H; subst l'.
  - apply memS_true in M. split; [exact ND|]. intros c. split; [intros K; left; exact K|intros [K|[K _]]; [exact K|subst; exact M]].
  - apply memS_false in M. split.
    + rewrite <- (rev_involutive (l ++ ["extended"])). apply NoDup_rev. rewrite rev_app_distr. cbn [rev app].
      constructor; [intros K; apply in_rev in K; contradiction|apply NoDup_rev; exact ND].
    + intros c. rewrite in_app_iff. cbn [In]. split; [intros [K|[K|[]]]; [left; exact K|right; split; [symmetry; exact K|exact EX]]|].
      intros [K|[K _]]; [left; exact K|right; left; symmetry; exact K].
Qed.

(* ------------------------------------------------------------------ *)
(* Refuted expectations                                                 *)

Definition x_feat (_ a : string) : option val :=
  if memS a ["weight"; "locpref"; "med"] then Some (VBool true)
  else if String.eqb a "bandwidth" then Some (VDict [("in", VList [VStr "int"; VStr "auto"])]) else None.
Definition x_direct := ["weight"].
Definition x_compound := [("locpref", DIn); ("med", DOut); ("prepend", DOut); ("bandwidth", DBoth)].
Definition x_run lp l ms := policy_loop x_feat "clab" x_direct x_compound (fun _ _ => false) "r1" lp 1 l (mk_ps ms [] [] false []).
Definition x_intf b := mk_pi None b.
Definition x_ngb n := [("name", VStr n); ("ipv4", VStr "10.1.0.2")].

(* An attribute with the value zero is ignored: a MED of zero is not set, a local preference of zero is replaced with
   the local preference of the node. *)
Theorem zero_attribute_refuted :
  x_run None [(x_intf [("med", VInt 0)], x_ngb "x")] ["bgp"] = (mk_ps ["bgp"] [] [] false [], [x_ngb "x"]) /\
  exists st d, x_run (Some (VInt 150)) [(x_intf [("locpref", VInt 0)], x_ngb "x")] ["bgp"] = (st, [d]) /\ dget "locpref" d = Some (VInt 150).
Proof. split; [reflexivity|]. eexists. eexists. split; reflexivity. Qed.

(* Whether a named policy is accepted on a node without the routing module depends on the order of interfaces. *)
Theorem routing_order_refuted :
  let a := (x_intf [("med", VInt 5)], x_ngb "x") in
  let b := (x_intf [("policy", VDict [("in", VStr "p")])], x_ngb "y") in
  ps_err (fst (x_run None [a; b] ["bgp"])) = [] /\ ps_err (fst (x_run None [b; a] ["bgp"])) = [PRouting].
Proof. split; reflexivity. Qed.

(* Bandwidth in the outbound direction does not enable extended communities on a node without EBGP communities. *)
Theorem extended_communities_refuted :
  extend_communities [("bandwidth", VDict [("out", VInt 100)])] None = None /\
  extend_communities [("bandwidth", VDict [("out", VInt 100)])] (Some ["standard"]) = Some ["standard"; "extended"].
Proof. split; reflexivity. Qed.

(* ------------------------------------------------------------------ *)
(* Examples                                                             *)

Example x_policy :
  x_run (Some (VInt 150))
    [(x_intf [("med", VInt 5); ("weight", VInt 7)], x_ngb "x");
     (mk_pi (Some "red") [("policy", VDict [("out", VStr "p")]); ("bandwidth", VInt 9)], x_ngb "y")] ["bgp"] =
  (mk_ps ["bgp"; "routing"]
     [("bp-x-1-in", entry [("locpref", VInt 150)]); ("bp-x-1-out", entry [("med", VInt 5)]);
      ("bp-vrf-red-y-2-in", entry [("locpref", VInt 150); ("bandwidth", VInt 9)])] [] true [VStr "10.1.0.2"],
   [ x_ngb "x" ++ [("weight", VInt 7); ("locpref", VInt 150); ("med", VInt 5); ("policy", VDict [("in", VStr "bp-x-1-in"); ("out", VStr "bp-x-1-out")])];
     x_ngb "y" ++ [("locpref", VInt 150); ("bandwidth", VDict [("in", VInt 9)]); ("policy", VDict [("out", VStr "p"); ("in", VStr "bp-vrf-red-y-2-in")])] ]).
Proof. reflexivity. Qed.

Example x_errors :
  ps_err (fst (x_run None
    [(x_intf [("prepend", VInt 2); ("bandwidth", VDict [("in", VStr "x"); ("out", VInt 1)])], x_ngb "x");
     (x_intf [("policy", VDict [("in", VStr "p")]); ("locpref", VInt 9)], x_ngb "y")] ["routing"])) =
  [PSupport (Sess_Model.ESupport "r1" "prepend" "x"); PValue "bandwidth" "in" (VStr "x"); PKey "bandwidth" "out"; PMix "y" "in"].
Proof. reflexivity. Qed.

Example x_hyps : ~ In "policy" (attrs x_direct x_compound) /\ ~ In "ipv4" (attrs x_direct x_compound) /\ ~ In "ipv6" (attrs x_direct x_compound).
Proof. repeat split; intros H; vm_compute in H; repeat (destruct H as [H|H]; [discriminate H|]); exact H. Qed.

Print Assumptions policy_neighbor_exact.
Print Assumptions policy_errors_exact.
Print Assumptions map_name_unique.
Print Assumptions policy_node_exact.
Print Assumptions policy_maps_exact.
Print Assumptions policy_clear_exact.
Print Assumptions node_locpref_exact.
Print Assumptions extended_communities_exact.
Print Assumptions zero_attribute_refuted.
Print Assumptions routing_order_refuted.
Print Assumptions extended_communities_refuted.
