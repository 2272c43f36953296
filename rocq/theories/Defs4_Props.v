(* Properties C157 and C158: copies of attribute definitions and search paths. *)
From Coq Require Import String Ascii ZArith Lia Bool List.
From Verif Require Import Base Box_Model Box_Props Text_Model Sort_Model Defs_Model.
Import ListNotations.
Local Open Scope string_scope.
Local Open Scope list_scope.

(* ------------------------------------------------------------------ *)
(* Specification                                                        *)

(* definition of an attribute *)
Definition entry (attr : dict val) (ns name : string) : option val :=
  match dget ns attr with Some (VDict d) => dget name d | _ => None end.

(* a request to copy or merge a definition from namespace s *)
Definition asks_copy (v : val) (s : string) : Prop := s <> "" /\ exists a, v = VDict a /\ dget "copy" a = Some (VStr s).
Definition asks_merge (v : val) (s : string) : Prop :=
  s <> "" /\ exists a, v = VDict a /\ dget "copy" a = None /\ dget "merge" a = Some (VStr s).

(* a definition without a request *)
Definition plain (v : val) : Prop := forall a, v = VDict a -> dget "copy" a = None /\ dget "merge" a = None.

(* ------------------------------------------------------------------ *)
(* C157: data types                                                     *)

Lemma dget_mapk : forall (f : string -> val -> val) d k,
  dget k (map (fun '(k, v) => (k, f k v)) d) = match dget k d with Some v => Some (f k v) | None => None end.
Proof.
  intros f d k. induction d as [|[k0 v0] r IH]; [reflexivity|]. cbn [map dget].
  destruct (String.eqb_spec k k0) as [E|E]; [subst; reflexivity|exact IH].
Qed.

(* An empty definition is replaced with the definition of the parent. *)
Theorem datatypes_copied : forall p c copy skip, exists c',
  copy_datatypes (Some (VDict p)) (Some (VDict c)) copy skip = Some (VDict c') /\ dkeys c' = dkeys c /\
  (forall k x, dget k c = Some VNull -> dget k p = Some x -> copy = [] \/ In k copy -> ~ In k skip -> dget k c' = Some x) /\
  (forall k, dget k c <> Some VNull \/ dget k p = None \/ (copy <> [] /\ ~ In k copy) \/ In k skip -> dget k c' = dget k c).
Proof.
  intros p c copy skip. eexists. split; [reflexivity|]. split.
  { unfold dkeys. rewrite map_map. apply map_ext. intros [k v]. reflexivity. }
  split.
  - intros k x C P CP SK.
    rewrite (dget_mapk (fun k v => if (match copy with [] => false | _ => negb (memS k copy) end) || memS k skip then v
            else match v, dget k p with VNull, Some x => x | _, _ => v end) c k). rewrite C.
    assert (E : match copy with [] => false | _ => negb (memS k copy) end = false).
    { destruct copy as [|a r]; [reflexivity|]. destruct CP as [Q|Q]; [discriminate Q|]. apply memS_true in Q. rewrite Q. reflexivity. }
    rewrite E. apply memS_false in SK. rewrite SK. cbn [orb]. rewrite P. reflexivity.
  - intros k H.
    rewrite (dget_mapk (fun k v => if (match copy with [] => false | _ => negb (memS k copy) end) || memS k skip then v
            else match v, dget k p with VNull, Some x => x | _, _ => v end) c k).
    destruct (dget k c) as [v|]; [|reflexivity]. f_equal.
    destruct H as [H|[H|[[H1 H2]|H]]].
    + destruct (_ || _)%bool; [reflexivity|]. destruct v; try reflexivity. exfalso; apply H; reflexivity.
    + destruct (_ || _)%bool; [reflexivity|]. rewrite H. destruct v; reflexivity.
    + destruct copy as [|a r]; [exfalso; apply H1; reflexivity|]. apply memS_false in H2. rewrite H2. reflexivity.
    + apply memS_true in H. rewrite H, orb_true_r. reflexivity.
Qed.

(* A definition of an attribute after everything was copied. *)
Theorem attributes_adjusted : forall attr g n l i np lnp nc,
  dget "global" attr = Some (VDict g) -> dget "node" attr = Some (VDict n) ->
  dget "link" attr = Some (VDict l) -> dget "interface" attr = Some (VDict i) ->
  let r := adjust_attributes attr np lnp nc in
  (forall ns, ns <> "node" -> ns <> "interface" -> dget ns r = dget ns attr) /\
  (forall k, entry r "node" k =
     match dget k n with
     | Some VNull => if memS k np then Some VNull else match dget k g with Some x => Some x | None => Some VNull end
     | x => x
     end) /\
  (forall k, (forall v, dget k i = Some v -> v <> VNull -> entry r "interface" k = Some v) /\
     (dget k i = None -> entry r "interface" k = None) /\
     (dget k i = Some VNull -> forall x, dget k l = Some x -> x <> VNull -> ~ In k lnp -> entry r "interface" k = Some x) /\
     (dget k i = Some VNull -> (dget k l = None \/ dget k l = Some VNull \/ In k lnp) ->
      (In k nc -> forall x, entry r "node" k = Some x -> entry r "interface" k = Some x) /\
      (~ In k nc \/ entry r "node" k = None -> entry r "interface" k = Some VNull))).
Proof.
  intros attr g n l i np lnp nc DG DN DL DI r.
  destruct (datatypes_copied g n [] np) as [n1 [EN [KN [CN UN]]]].
  destruct (datatypes_copied l i [] lnp) as [i1 [EI [KI [CI UI]]]].
  set (a1 := dset "node" (VDict n1) attr).
  set (a2 := dset "interface" (VDict i1) a1).
  assert (D2N : dget "node" a2 = Some (VDict n1)).
  { unfold a2. rewrite dget_dset_other by discriminate. apply dget_dset_same. }
  assert (D2I : dget "interface" a2 = Some (VDict i1)) by apply dget_dset_same.
  assert (RE : exists i2, dget "interface" r = Some (VDict i2) /\ dget "node" r = Some (VDict n1) /\
     (forall ns, ns <> "node" -> ns <> "interface" -> dget ns r = dget ns attr) /\
     ((nc = [] /\ i2 = i1) \/ (nc <> [] /\ copy_datatypes (Some (VDict n1)) (Some (VDict i1)) nc [] = Some (VDict i2)))).
  { assert (E1 : opt_set "node" (copy_datatypes (dget "global" attr) (dget "node" attr) [] np) attr = a1).
    { rewrite DG, DN, EN. reflexivity. }
    assert (E2 : opt_set "interface" (copy_datatypes (dget "link" a1) (dget "interface" a1) [] lnp) a1 = a2).
    { unfold a1. rewrite !dget_dset_other by discriminate. rewrite DL, DI, EI. reflexivity. }
    assert (OT : forall ns, ns <> "node" -> ns <> "interface" -> dget ns a2 = dget ns attr).
    { intros ns N1 N2. unfold a2, a1. rewrite !dget_dset_other by assumption. reflexivity. }
    unfold r, adjust_attributes. rewrite E1, E2. destruct nc as [|x y].
    - exists i1. split; [exact D2I|]. split; [exact D2N|]. split; [exact OT|]. left. split; reflexivity.
    - destruct (datatypes_copied n1 i1 (x :: y) []) as [i2 [E3 _]]. exists i2. rewrite D2N, D2I, E3. cbn [opt_set].
      split; [apply dget_dset_same|]. split; [rewrite dget_dset_other by discriminate; exact D2N|].
      split; [intros ns N1 N2; rewrite dget_dset_other by assumption; exact (OT ns N1 N2)|].
      right. split; [discriminate|reflexivity]. }
  destruct RE as [i2 [RI [RN [RO RC]]]]. clearbody r a1 a2. split; [exact RO|].
  assert (NV : forall k, dget k n1 = match dget k n with
     | Some VNull => if memS k np then Some VNull else match dget k g with Some x => Some x | None => Some VNull end
     | x => x end).
  { intros k. destruct (dget k n) as [v|] eqn:D.
    - destruct v; try (rewrite (UN k) by (left; rewrite D; discriminate); exact D).
      destruct (memS k np) eqn:M; [apply memS_true in M; rewrite (UN k) by (right; right; right; exact M); exact D|].
      apply memS_false in M. destruct (dget k g) as [x|] eqn:G; [exact (CN k x D G (or_introl eq_refl) M)|].
      rewrite (UN k) by (right; left; exact G). exact D.
    - rewrite (UN k) by (left; rewrite D; discriminate). exact D. }
  split; [intros k; unfold entry; rewrite RN; exact (NV k)|].
  assert (I2 : forall k, dget k i1 <> Some VNull -> dget k i2 = dget k i1).
  { intros k N. destruct RC as [[_ E]|[NE E]]; [subst; reflexivity|].
    destruct (datatypes_copied n1 i1 nc []) as [i3 [E3 [_ [_ U3]]]]. rewrite E in E3. injection E3 as E3. subst i3. apply U3. left; exact N. }
  intros k. unfold entry. rewrite RI, RN. split; [|split; [|split]].
  - intros v D NV2. assert (E : dget k i1 = Some v) by (rewrite (UI k); [exact D|left; rewrite D; intros Q; injection Q as Q; contradiction]).
    rewrite I2; [exact E|]. rewrite E. intros Q. injection Q as Q. contradiction.
  - intros D. assert (E : dget k i1 = None) by (rewrite (UI k); [exact D|left; rewrite D; discriminate]). rewrite I2; [exact E|rewrite E; discriminate].
  - intros D x L NX SK. assert (E : dget k i1 = Some x) by exact (CI k x D L (or_introl eq_refl) SK).
    rewrite I2; [exact E|]. rewrite E. intros Q. injection Q as Q. contradiction.
  - intros D H. assert (E : dget k i1 = Some VNull).
    { destruct H as [H|[H|H]].
      - rewrite (UI k) by (right; left; exact H). exact D.
      - destruct (in_dec string_dec k lnp) as [Q|Q]; [rewrite (UI k) by (right; right; right; exact Q); exact D|].
        exact (CI k VNull D H (or_introl eq_refl) Q).
      - rewrite (UI k) by (right; right; right; exact H). exact D. }
    split.
    + intros IN x DX. destruct RC as [[Q _]|[NE E2]]; [subst nc; destruct IN|].
      destruct (datatypes_copied n1 i1 nc []) as [i3 [E3 [_ [C3 _]]]]. rewrite E2 in E3. injection E3 as E3. subst i3.
      apply (C3 k x E DX (or_intror IN)). intros [].
    + intros NI. destruct RC as [[_ Q]|[NE E2]]; [subst; exact E|].
      destruct (datatypes_copied n1 i1 nc []) as [i3 [E3 [_ [_ U3]]]]. rewrite E2 in E3. injection E3 as E3. subst i3.
      rewrite U3; [exact E|]. destruct NI as [Q|Q]; [right; right; left; split; assumption|right; left; exact Q].
Qed.

Example ex_adjusted :
  let attr := [("global", VDict [("area", VStr "ipv4"); ("timers", VStr "dict")]); ("node", VDict [("area", VNull); ("priority", VStr "int")]);
               ("link", VDict [("cost", VStr "int"); ("timers", VNull)]);
               ("interface", VDict [("cost", VNull); ("area", VNull); ("priority", VNull); ("timers", VNull); ("own", VStr "str")])] in
  dget "interface" (adjust_attributes attr [] [] ["area"; "timers"]) =
  Some (VDict [("cost", VStr "int"); ("area", VStr "ipv4"); ("priority", VNull); ("timers", VNull); ("own", VStr "str")]).
Proof. reflexivity. Qed.

(* ------------------------------------------------------------------ *)
(* C157: requests to copy and merge                                     *)

Definition kind (a : dict val) (ns : string) : option bool :=
  match dget ns a with None => None | Some (VDict _) => Some true | Some _ => Some false end.

Definition okd (a : dict val) : Prop := forall ns d, dget ns a = Some (VDict d) -> NoDup (dkeys d).

Record reach (a b : dict val) : Prop := mk_reach {
  r_plain : forall s m v, entry a s m = Some v -> plain v -> entry b s m = Some v;
  r_none : forall s m, entry a s m = None -> entry b s m = None \/ entry b s m = Some (VDict []);
  r_kind : forall s, kind b s = kind a s;
  r_keys : dkeys b = dkeys a;
  r_okd : okd a -> okd b
}.

Lemma plain_empty : plain (VDict []).
Proof. intros a E. injection E as E. subst. split; reflexivity. Qed.

Lemma reach_refl : forall a, reach a a.
Proof. intros a. constructor; auto. Qed.

Lemma reach_trans : forall a b c, reach a b -> reach b c -> reach a c.
Proof.
  intros a b c [A1 A2 A3 A4 A5] [B1 B2 B3 B4 B5]. constructor.
  - intros s m v E P. exact (B1 _ _ _ (A1 _ _ _ E P) P).
  - intros s m E. destruct (A2 s m E) as [Q|Q]; [exact (B2 s m Q)|]. right. exact (B1 _ _ _ Q plain_empty).
  - intros s. rewrite B3. apply A3.
  - rewrite B4. exact A4.
  - intros O. exact (B5 (A5 O)).
Qed.

Lemma put_entry : forall ns name v a s m, kind a ns = Some true ->
  entry (put ns name v a) s m = if (String.eqb s ns && String.eqb m name)%bool then Some v else entry a s m.
Proof.
  intros ns name v a s m K. unfold put, kind in *. destruct (dget ns a) as [x|] eqn:D; [|discriminate K].
  destruct x as [| | | | |d]; try discriminate K. unfold entry.
  destruct (String.eqb_spec s ns) as [E|E]; cbn [andb].
  - subst s. rewrite dget_dset_same, D. destruct (String.eqb_spec m name) as [F|F]; [subst; apply dget_dset_same|apply dget_dset_other; exact F].
  - rewrite dget_dset_other by exact E. reflexivity.
Qed.

Lemma put_kind : forall ns name v a s, kind (put ns name v a) s = kind a s.
Proof.
  intros ns name v a s. unfold put. destruct (dget ns a) as [x|] eqn:D; [|reflexivity]. destruct x as [| | | | |d]; try reflexivity.
  unfold kind. destruct (String.eqb_spec s ns) as [E|E]; [subst; rewrite dget_dset_same, D; reflexivity|].
  rewrite dget_dset_other by exact E. reflexivity.
Qed.

Lemma put_keys : forall ns name v a, dkeys (put ns name v a) = dkeys a.
Proof.
  intros ns name v a. unfold put. destruct (dget ns a) as [x|] eqn:D; [|reflexivity]. destruct x as [| | | | |d]; try reflexivity.
  apply dkeys_dset_mem. exact (dget_Some_key _ _ D).
Qed.

Lemma put_okd : forall ns name v a, okd a -> okd (put ns name v a).
Proof.
  intros ns name v a O. unfold put. destruct (dget ns a) as [x|] eqn:D; [|exact O]. destruct x as [| | | | |d]; try exact O.
  intros s e E. destruct (String.eqb_spec s ns) as [Q|Q].
  - subst s. rewrite dget_dset_same in E. injection E as E. subst e. apply NoDup_dset. exact (O _ _ D).
  - rewrite dget_dset_other in E by exact Q. exact (O _ _ E).
Qed.

(* what one step does *)
Lemma copy_one_reach : forall ns n a, reach a (fst (copy_one ns n a)).
Proof.
  intros ns n a. unfold copy_one. destruct (dget ns a) as [x|] eqn:D; [|apply reach_refl].
  destruct x as [| | | | |d]; try apply reach_refl. destruct (dget n d) as [v|] eqn:V; [|apply reach_refl].
  destruct v as [| | | | |r]; try apply reach_refl. destruct (copy_source r) as [sv|] eqn:CS; [|apply reach_refl].
  destruct sv as [| | |s| |]; try apply reach_refl. destruct (dget s a) as [y|] eqn:S; [|apply reach_refl].
  destruct y as [| | | | |sd]; try apply reach_refl.
  set (a1 := match dget n sd with Some _ => a | None => put s n (VDict []) a end).
  assert (KN : kind a ns = Some true) by (unfold kind; rewrite D; reflexivity).
  assert (KS : kind a s = Some true) by (unfold kind; rewrite S; reflexivity).
  assert (NP : ~ plain (VDict r)).
  { intros P. destruct (P r eq_refl) as [P1 P2]. unfold copy_source in CS. rewrite P1, P2 in CS. discriminate CS. }
  assert (EN : entry a ns n = Some (VDict r)) by (unfold entry; rewrite D; exact V).
  assert (R1 : reach a a1 /\ entry a1 ns n = Some (VDict r)).
  { unfold a1. destruct (dget n sd) as [w|] eqn:W; [split; [apply reach_refl|exact EN]|].
    assert (ES : entry a s n = None) by (unfold entry; rewrite S; exact W).
    split; [constructor|].
    - intros t m v E P. rewrite put_entry by exact KS. destruct (String.eqb_spec t s) as [Q|Q]; [|exact E].
      destruct (String.eqb_spec m n) as [Q2|Q2]; [|exact E]. subst. rewrite ES in E. discriminate E.
    - intros t m E. rewrite put_entry by exact KS. destruct (String.eqb t s && String.eqb m n)%bool; [right; reflexivity|left; exact E].
    - apply put_kind.
    - apply put_keys.
    - apply put_okd.
    - rewrite put_entry by exact KS. destruct (String.eqb_spec ns s) as [Q|Q]; [|exact EN].
      subst s. rewrite ES in EN. discriminate EN. }
  clearbody a1. destruct R1 as [R1 E1].
  assert (FIN : forall x, reach a (put ns n x a1)).
  { intros x. apply (reach_trans _ _ _ R1). assert (K1 : kind a1 ns = Some true) by (rewrite (r_kind _ _ R1); exact KN). constructor.
    - intros t m v E P. rewrite put_entry by exact K1. destruct (String.eqb_spec t ns) as [Q|Q]; [|exact E].
      destruct (String.eqb_spec m n) as [Q2|Q2]; [|exact E]. subst. rewrite E1 in E. injection E as E. subst v. contradiction.
    - intros t m E. rewrite put_entry by exact K1. destruct (String.eqb_spec t ns) as [Q|Q]; [|left; exact E].
      destruct (String.eqb_spec m n) as [Q2|Q2]; [|left; exact E]. subst. rewrite E1 in E. discriminate E.
    - apply put_kind.
    - apply put_keys.
    - apply put_okd. }
  destruct (dmem "copy" r); apply FIN.
Qed.

Lemma copy_one_keeps : forall ns n a s m v, (s, m) <> (ns, n) -> entry a s m = Some v -> entry (fst (copy_one ns n a)) s m = Some v.
Proof.
  intros ns n a s0 m v NE E. unfold copy_one. destruct (dget ns a) as [x|] eqn:D; [|exact E].
  destruct x as [| | | | |d]; try exact E. destruct (dget n d) as [w|] eqn:V; [|exact E].
  destruct w as [| | | | |r]; try exact E. destruct (copy_source r) as [sv|] eqn:CS; [|exact E].
  destruct sv as [| | |s| |]; try exact E. destruct (dget s a) as [y|] eqn:S; [|exact E].
  destruct y as [| | | | |sd]; try exact E.
  set (a1 := match dget n sd with Some _ => a | None => put s n (VDict []) a end).
  assert (KN : kind a ns = Some true) by (unfold kind; rewrite D; reflexivity).
  assert (KS : kind a s = Some true) by (unfold kind; rewrite S; reflexivity).
  assert (K1 : kind a1 ns = Some true) by (unfold a1; destruct (dget n sd); [exact KN|rewrite put_kind; exact KN]).
  assert (E1 : entry a1 s0 m = Some v).
  { unfold a1. destruct (dget n sd) as [w|] eqn:W; [exact E|]. rewrite put_entry by exact KS.
    destruct (String.eqb_spec s0 s) as [Q|Q]; [|exact E]. destruct (String.eqb_spec m n) as [Q2|Q2]; [|exact E].
    subst. unfold entry in E. rewrite S, W in E. discriminate E. }
  assert (FIN : forall x, entry (put ns n x a1) s0 m = Some v).
  { intros x. rewrite put_entry by exact K1. destruct (String.eqb_spec s0 ns) as [Q|Q]; [|exact E1].
    destruct (String.eqb_spec m n) as [Q2|Q2]; [|exact E1]. subst. exfalso. apply NE; reflexivity. }
  destruct (dmem "copy" r); apply FIN.
Qed.

Lemma names_reach : forall ns names a, reach a (fst (copy_names ns names a)).
Proof.
  intros ns. induction names as [|n r IH]; intros a; cbn [copy_names]; [apply reach_refl|].
  pose proof (copy_one_reach ns n a) as R1. destruct (copy_one ns n a) as [a1 e1]. cbn [fst] in R1.
  pose proof (IH a1) as R2. destruct (copy_names ns r a1) as [a2 e2]. exact (reach_trans _ _ _ R1 R2).
Qed.

Lemma names_keeps : forall ns names a s m v, s <> ns \/ ~ In m names -> entry a s m = Some v ->
  entry (fst (copy_names ns names a)) s m = Some v.
Proof.
  intros ns. induction names as [|n r IH]; intros a s m v H E; cbn [copy_names]; [exact E|].
  assert (NE : (s, m) <> (ns, n)).
  { intros Q. injection Q as Q1 Q2. destruct H as [H|H]; [contradiction|apply H; left; symmetry; exact Q2]. }
  pose proof (copy_one_keeps ns n a s m v NE E) as K1. destruct (copy_one ns n a) as [a1 e1]. cbn [fst] in K1.
  assert (K2 : entry (fst (copy_names ns r a1)) s m = Some v).
  { apply IH; [|exact K1]. destruct H as [H|H]; [left; exact H|right; intros Q; apply H; right; exact Q]. }
  destruct (copy_names ns r a1) as [a2 e2]. exact K2.
Qed.

Lemma spaces_reach : forall l a, reach a (fst (copy_spaces l a)).
Proof.
  induction l as [|ns r IH]; intros a; cbn [copy_spaces]; [apply reach_refl|].
  assert (R1 : reach a (fst (match dget ns a with Some (VDict d) => copy_names ns (dkeys d) a | _ => (a, []) end))).
  { destruct (dget ns a) as [x|]; [|apply reach_refl]. destruct x; try apply reach_refl. apply names_reach. }
  destruct (match dget ns a with Some (VDict d) => copy_names ns (dkeys d) a | _ => (a, []) end) as [a1 e1]. cbn [fst] in R1.
  pose proof (IH a1) as R2. destruct (copy_spaces r a1) as [a2 e2]. exact (reach_trans _ _ _ R1 R2).
Qed.

Lemma spaces_keeps : forall l a s m v, ~ In s l -> entry a s m = Some v -> entry (fst (copy_spaces l a)) s m = Some v.
Proof.
  induction l as [|ns r IH]; intros a s m v H E; cbn [copy_spaces]; [exact E|].
  assert (NS : s <> ns) by (intros Q; apply H; left; symmetry; exact Q).
  assert (K1 : entry (fst (match dget ns a with Some (VDict d) => copy_names ns (dkeys d) a | _ => (a, []) end)) s m = Some v).
  { destruct (dget ns a) as [x|]; [|exact E]. destruct x; try exact E. apply names_keeps; [left; exact NS|exact E]. }
  destruct (match dget ns a with Some (VDict d) => copy_names ns (dkeys d) a | _ => (a, []) end) as [a1 e1]. cbn [fst] in K1.
  assert (K2 : entry (fst (copy_spaces r a1)) s m = Some v) by (apply IH; [intros Q; apply H; right; exact Q|exact K1]).
  destruct (copy_spaces r a1) as [a2 e2]. exact K2.
Qed.

(* every definition is processed once, in a state that keeps all definitions without requests *)
Lemma names_target : forall ns n names a v, NoDup names -> In n names -> entry a ns n = Some v ->
  exists mid, reach a mid /\ entry mid ns n = Some v /\
    (forall x, entry (fst (copy_one ns n mid)) ns n = Some x -> entry (fst (copy_names ns names a)) ns n = Some x) /\
    incl (snd (copy_one ns n mid)) (snd (copy_names ns names a)).
Proof.
  intros ns n. induction names as [|k r IH]; intros a v N I E; [destruct I|]. inversion N as [|? ? N1 N2]; subst.
  cbn [copy_names]. destruct (String.eqb_spec n k) as [Q|Q].
  - subst k. exists a. split; [apply reach_refl|]. split; [exact E|].
    destruct (copy_one ns n a) as [a1 e1]. cbn [fst snd]. split.
    + intros x X. pose proof (names_keeps ns r a1 ns n x (or_intror N1) X) as K. destruct (copy_names ns r a1) as [a2 e2]. exact K.
    + destruct (copy_names ns r a1) as [a2 e2]. cbn [snd]. apply incl_appl, incl_refl.
  - destruct I as [I|I]; [exfalso; apply Q; symmetry; exact I|].
    assert (NE : (ns, n) <> (ns, k)) by (intros X; injection X as X; contradiction).
    pose proof (copy_one_reach ns k a) as R1. pose proof (copy_one_keeps ns k a ns n v NE E) as K1.
    destruct (copy_one ns k a) as [a1 e1]. cbn [fst] in R1, K1.
    destruct (IH a1 v N2 I K1) as [mid [R2 [EM [F G]]]]. exists mid.
    split; [exact (reach_trans _ _ _ R1 R2)|]. split; [exact EM|].
    destruct (copy_names ns r a1) as [a2 e2]. cbn [fst snd] in *. split; [exact F|]. apply incl_appr. exact G.
Qed.

Lemma spaces_target : forall ns n l a v, okd a -> NoDup l -> In ns l -> entry a ns n = Some v ->
  exists mid, reach a mid /\ entry mid ns n = Some v /\
    (forall x, entry (fst (copy_one ns n mid)) ns n = Some x -> entry (fst (copy_spaces l a)) ns n = Some x) /\
    incl (snd (copy_one ns n mid)) (snd (copy_spaces l a)).
Proof.
  intros ns n. induction l as [|k r IH]; intros a v O N I E; [destruct I|]. inversion N as [|? ? N1 N2]; subst.
  cbn [copy_spaces]. destruct (String.eqb_spec ns k) as [Q|Q].
  - subst k. unfold entry in E. destruct (dget ns a) as [x|] eqn:D; [|discriminate E]. destruct x as [| | | | |d]; try discriminate E.
    assert (EE : entry a ns n = Some v) by (unfold entry; rewrite D; exact E).
    destruct (names_target ns n (dkeys d) a v (O _ _ D) (dget_Some_key _ _ E) EE) as [mid [R [EM [F G]]]].
    exists mid. split; [exact R|]. split; [exact EM|].
    destruct (copy_names ns (dkeys d) a) as [a1 e1]. cbn [fst snd] in *. split.
    + intros x X. pose proof (spaces_keeps r a1 ns n x N1 (F x X)) as K. destruct (copy_spaces r a1) as [a2 e2]. exact K.
    + destruct (copy_spaces r a1) as [a2 e2]. cbn [snd]. apply incl_appl. exact G.
  - destruct I as [I|I]; [exfalso; apply Q; symmetry; exact I|].
    assert (R1 : reach a (fst (match dget k a with Some (VDict d) => copy_names k (dkeys d) a | _ => (a, []) end)) /\
                 entry (fst (match dget k a with Some (VDict d) => copy_names k (dkeys d) a | _ => (a, []) end)) ns n = Some v).
    { destruct (dget k a) as [x|]; [|split; [apply reach_refl|exact E]]. destruct x; try (split; [apply reach_refl|exact E]).
      split; [apply names_reach|]. apply names_keeps; [left; exact Q|exact E]. }
    destruct (match dget k a with Some (VDict d) => copy_names k (dkeys d) a | _ => (a, []) end) as [a1 e1]. cbn [fst] in R1.
    destruct R1 as [R1 E1]. destruct (IH a1 v (r_okd _ _ R1 O) N2 I E1) as [mid [R2 [EM [F G]]]].
    exists mid. split; [exact (reach_trans _ _ _ R1 R2)|]. split; [exact EM|].
    destruct (copy_spaces r a1) as [a2 e2]. cbn [fst snd] in *. split; [exact F|]. apply incl_appr. exact G.
Qed.

Lemma entry_key : forall a ns n v, entry a ns n = Some v -> In ns (dkeys a).
Proof.
  intros a ns n v E. unfold entry in E. destruct (dget ns a) as [x|] eqn:D; [|discriminate E]. exact (dget_Some_key _ _ D).
Qed.

Lemma truthy_str : forall s, s <> "" -> truthy (VStr s) = true.
Proof. intros s N. cbn [truthy]. apply negb_true_iff. apply String.eqb_neq. exact N. Qed.

Lemma source_copy : forall a s, s <> "" -> dget "copy" a = Some (VStr s) -> copy_source a = Some (VStr s).
Proof. intros a s N D. unfold copy_source. rewrite D, truthy_str by exact N. reflexivity. Qed.

Lemma source_merge : forall a s, s <> "" -> dget "copy" a = None -> dget "merge" a = Some (VStr s) -> copy_source a = Some (VStr s).
Proof. intros a s N C D. unfold copy_source. rewrite C, D, truthy_str by exact N. reflexivity. Qed.

Lemma mid_source : forall a mid s n v, reach a mid -> entry a s n = Some v -> plain v ->
  exists sd, dget s mid = Some (VDict sd) /\ dget n sd = Some v.
Proof.
  intros a mid s n v R E P. pose proof (r_plain _ _ R _ _ _ E P) as M. unfold entry in M.
  destruct (dget s mid) as [x|]; [|discriminate M]. destruct x as [| | | | |sd]; try discriminate M. exists sd. split; [reflexivity|exact M].
Qed.

Lemma mid_kind : forall mid ns n v, entry mid ns n = Some v -> kind mid ns = Some true.
Proof.
  intros mid ns n v E. unfold entry, kind in *. destruct (dget ns mid) as [x|]; [|discriminate E]. destruct x; try discriminate E. reflexivity.
Qed.

(* A definition without a request does not change. A request to copy is replaced with the definition in the other
   namespace, when there is one without a request; values in a request to merge have priority. *)
Theorem definitions_copied : forall attr, NoDup (dkeys attr) -> okd attr ->
  let r := fst (copy_merge_attributes attr) in
  dkeys r = dkeys attr /\
  (forall ns n v, entry attr ns n = Some v -> plain v -> entry r ns n = Some v) /\
  (forall ns n v s w, entry attr ns n = Some v -> asks_copy v s -> entry attr s n = Some w -> plain w -> entry r ns n = Some w) /\
  (forall ns n v s w, entry attr ns n = Some v -> wf v -> asks_merge v s -> entry attr s n = Some (VDict w) -> plain (VDict w) ->
   exists m, entry r ns n = Some m /\ forall p x,
     leaf p m x <-> (forall q, p <> "merge" :: q) /\ (leaf p v x \/ (leaf p (VDict w) x /\ ~ overridden p v))).
Proof.
  intros attr ND O r. unfold r, copy_merge_attributes.
  pose proof (spaces_reach (dkeys attr) attr) as R.
  split; [exact (r_keys _ _ R)|]. split; [exact (r_plain _ _ R)|]. split.
  - intros ns n v s w E [NS [a [EV C]]] ES P. subst v.
    destruct (spaces_target ns n (dkeys attr) attr _ O ND (entry_key _ _ _ _ E) E) as [mid [RM [EM [F _]]]].
    apply F. destruct (mid_source _ _ _ _ _ RM ES P) as [sd [D1 D2]]. pose proof (mid_kind _ _ _ _ EM) as K.
    unfold copy_one. unfold entry in EM. destruct (dget ns mid) as [x|]; [|discriminate EM]. destruct x as [| | | | |d]; try discriminate EM.
    rewrite EM, (source_copy _ _ NS C), D1, D2. unfold dmem. rewrite C. cbn [fst]. rewrite put_entry by exact K.
    rewrite !String.eqb_refl. reflexivity.
  - intros ns n v s w E WV [NS [a [EV [C M]]]] ES P. subst v.
    destruct (spaces_target ns n (dkeys attr) attr _ O ND (entry_key _ _ _ _ E) E) as [mid [RM [EM [F _]]]].
    destruct (mid_source _ _ _ _ _ RM ES P) as [sd [D1 D2]]. pose proof (mid_kind _ _ _ _ EM) as K.
    exists (VDict (dpop "merge" (mdict w a))). split.
    + apply F. unfold copy_one. unfold entry in EM. destruct (dget ns mid) as [x|]; [|discriminate EM]. destruct x as [| | | | |d]; try discriminate EM.
      rewrite EM, (source_merge _ _ NS C M), D1, D2. unfold dmem. rewrite C, merge_dicts. cbn [fst]. rewrite put_entry by exact K.
      rewrite !String.eqb_refl. reflexivity.
    + intros p x.
      assert (LP : leaf p (VDict (dpop "merge" (mdict w a))) x <-> (forall q, p <> "merge" :: q) /\ leaf p (merge (VDict w) (VDict a)) x).
      { rewrite merge_dicts. unfold leaf. destruct p as [|k p].
        - cbn [lookup]. split; [intros [Q1 Q2]; injection Q1 as Q1; subst x; discriminate Q2|intros [_ [Q1 Q2]]; injection Q1 as Q1; subst x; discriminate Q2].
        - cbn [lookup]. destruct (String.eqb_spec k "merge") as [Q|Q].
          + subst k. rewrite dget_dpop_same. split; [intros [Q1 _]; discriminate Q1|]. intros [A _]. exfalso. exact (A p eq_refl).
          + rewrite dget_dpop_other by exact Q. split; [intros A; split; [intros q B; injection B as B1 B2; contradiction|exact A]|intros [_ A]; exact A]. }
      rewrite LP, merge_leaves by exact WV. reflexivity.
Qed.

(* A source that does not exist is reported; without the attribute in the source namespace the definition becomes empty. *)
Theorem definition_errors : forall attr ns n v s, NoDup (dkeys attr) -> okd attr ->
  entry attr ns n = Some v -> asks_copy v s ->
  (dget s attr = None -> In (ANoSource ns n s) (snd (copy_merge_attributes attr)) /\
                         entry (fst (copy_merge_attributes attr)) ns n = Some v) /\
  (kind attr s = Some false -> In (ABadSource ns n s) (snd (copy_merge_attributes attr)) /\
                         entry (fst (copy_merge_attributes attr)) ns n = Some v) /\
  (kind attr s = Some true -> entry attr s n = None ->
   entry (fst (copy_merge_attributes attr)) ns n = Some (VDict [])).
Proof.
  intros attr ns n v s ND O E [NS [a [EV C]]]. subst v. unfold copy_merge_attributes.
  destruct (spaces_target ns n (dkeys attr) attr _ O ND (entry_key _ _ _ _ E) E) as [mid [RM [EM [F G]]]].
  pose proof (mid_kind _ _ _ _ EM) as K. pose proof (r_kind _ _ RM s) as KS. pose proof EM as EM2.
  unfold copy_one in F, G. unfold entry in EM2. destruct (dget ns mid) as [x|] eqn:D; [|discriminate EM2]. destruct x as [| | | | |d]; try discriminate EM2.
  rewrite EM2, (source_copy _ _ NS C) in F, G. split; [|split].
  - intros Q. assert (M : dget s mid = None).
    { unfold kind in KS. rewrite Q in KS. destruct (dget s mid) as [y|]; [destruct y; discriminate KS|reflexivity]. }
    rewrite M in F, G. cbn [fst snd] in F, G. split; [apply G; left; reflexivity|exact (F _ EM)].
  - intros Q. rewrite Q in KS. unfold kind in KS. destruct (dget s mid) as [y|]; [|discriminate KS].
    destruct y; try discriminate KS; cbn [fst snd] in F, G; (split; [apply G; left; reflexivity|exact (F _ EM)]).
  - intros Q EN. rewrite Q in KS. unfold kind in KS. destruct (dget s mid) as [y|] eqn:S; [|discriminate KS].
    destruct y as [| | | | |sd]; try discriminate KS. apply F.
    pose proof (r_none _ _ RM s n EN) as RN. unfold entry in RN. rewrite S in RN. unfold dmem. rewrite C.
    destruct RN as [RN|RN]; rewrite RN; cbn [fst].
    + rewrite put_entry by (rewrite put_kind; exact K). rewrite !String.eqb_refl. reflexivity.
    + rewrite put_entry by exact K. rewrite !String.eqb_refl. reflexivity.
Qed.

Lemma one_errors : forall ns n a e, In e (snd (copy_one ns n a)) ->
  exists s, (e = ANoSource ns n s /\ kind a s = None) \/ (e = ABadSource ns n s /\ kind a s = Some false).
Proof.
  intros ns n a e I. unfold copy_one in I. destruct (dget ns a) as [x|]; [|destruct I]. destruct x as [| | | | |d]; try destruct I.
  destruct (dget n d) as [v|]; [|destruct I]. destruct v as [| | | | |r]; try destruct I.
  destruct (copy_source r) as [sv|]; [|destruct I]. destruct sv as [| | |s| |]; try destruct I.
  exists s. unfold kind. destruct (dget s a) as [y|]; [|destruct I as [I|[]]; left; split; [symmetry; exact I|reflexivity]].
  destruct y as [| | | | |sd].
  6:{ destruct (dmem "copy" r); destruct I. }
  all: (destruct I as [I|[]]; right; split; [symmetry; exact I|reflexivity]).
Qed.

(* Nothing else is reported. *)
Theorem definition_errors_only : forall attr e, In e (snd (copy_merge_attributes attr)) ->
  exists ns n s, (e = ANoSource ns n s /\ dget s attr = None) \/
                 (e = ABadSource ns n s /\ exists v, dget s attr = Some v /\ is_dict v = false).
Proof.
  assert (NM : forall ns names a e, In e (snd (copy_names ns names a)) ->
    exists n s, (e = ANoSource ns n s /\ kind a s = None) \/ (e = ABadSource ns n s /\ kind a s = Some false)).
  { intros ns. induction names as [|n r IH]; intros a e I; cbn [copy_names] in I; [destruct I|].
    pose proof (copy_one_reach ns n a) as R. pose proof (one_errors ns n a) as E1. destruct (copy_one ns n a) as [a1 e1]. cbn [fst snd] in R, E1.
    pose proof (IH a1) as E2. destruct (copy_names ns r a1) as [a2 e2]. cbn [snd] in I, E2. apply in_app_or in I. destruct I as [I|I].
    - destruct (E1 e I) as [s H]. exists n, s. exact H.
    - destruct (E2 e I) as [n' [s H]]. exists n', s. rewrite (r_kind _ _ R) in H. exact H. }
  assert (SP : forall l a e, In e (snd (copy_spaces l a)) ->
    exists ns n s, (e = ANoSource ns n s /\ kind a s = None) \/ (e = ABadSource ns n s /\ kind a s = Some false)).
  { induction l as [|ns r IH]; intros a e I; cbn [copy_spaces] in I; [destruct I|].
    assert (R1 : reach a (fst (match dget ns a with Some (VDict d) => copy_names ns (dkeys d) a | _ => (a, []) end)) /\
      forall e, In e (snd (match dget ns a with Some (VDict d) => copy_names ns (dkeys d) a | _ => (a, []) end)) ->
        exists ns n s, (e = ANoSource ns n s /\ kind a s = None) \/ (e = ABadSource ns n s /\ kind a s = Some false)).
    { destruct (dget ns a) as [x|]; [|split; [apply reach_refl|intros y []]].
      destruct x as [| | | | |d]; try (split; [apply reach_refl|intros y []]).
      split; [apply names_reach|]. intros y Y. destruct (NM _ _ _ _ Y) as [n [s H]]. exists ns, n, s. exact H. }
    destruct (match dget ns a with Some (VDict d) => copy_names ns (dkeys d) a | _ => (a, []) end) as [a1 e1]. cbn [fst snd] in R1.
    destruct R1 as [R1 E1]. pose proof (IH a1) as E2. destruct (copy_spaces r a1) as [a2 e2]. cbn [snd] in I, E2.
    apply in_app_or in I. destruct I as [I|I]; [exact (E1 e I)|].
    destruct (E2 e I) as [n1 [n2 [s H]]]. exists n1, n2, s. rewrite (r_kind _ _ R1) in H. exact H. }
  intros attr e I. destruct (SP _ _ _ I) as [ns [n [s H]]]. exists ns, n, s. unfold kind in H.
  destruct H as [[E K]|[E K]]; [left|right]; (split; [exact E|]); destruct (dget s attr) as [v|].
  - destruct v; discriminate K.
  - reflexivity.
  - exists v. split; [reflexivity|]. destruct v; try reflexivity. discriminate K.
  - discriminate K.
Qed.

(* A request that leads to another request is resolved only when the other namespace comes first. *)
Theorem copy_chain_refuted :
  let g := ("global", VDict [("timers", VStr "int")]) in
  let n := ("node", VDict [("timers", VDict [("copy", VStr "global")])]) in
  let i := ("interface", VDict [("timers", VDict [("copy", VStr "node")])]) in
  entry (fst (copy_merge_attributes [g; n; i])) "interface" "timers" = Some (VStr "int") /\
  entry (fst (copy_merge_attributes [g; i; n])) "interface" "timers" = Some (VDict [("copy", VStr "global")]) /\
  snd (copy_merge_attributes [g; i; n]) = [].
Proof. split; [reflexivity|]. split; reflexivity. Qed.

Example ex_copied :
  let attr := [("global", VDict [("timers", VDict [("type", VStr "dict"); ("hello", VStr "int")]); ("area", VStr "ipv4")]);
               ("link", VDict [("timers", VDict [("merge", VStr "global"); ("type", VStr "other")]); ("area", VDict [("copy", VStr "global")]);
                               ("x", VDict [("copy", VStr "nothing")])])] in
  copy_merge_attributes attr =
  ([("global", VDict [("timers", VDict [("type", VStr "dict"); ("hello", VStr "int")]); ("area", VStr "ipv4")]);
    ("link", VDict [("timers", VDict [("type", VStr "other"); ("hello", VStr "int")]); ("area", VStr "ipv4");
                    ("x", VDict [("copy", VStr "nothing")])])], [ANoSource "link" "x" "nothing"]).
Proof. reflexivity. Qed.

(* ------------------------------------------------------------------ *)
(* C158: search paths                                                   *)

Definition joined (append : bool) (o l : list val) : list val := if append then o ++ l else l ++ o.

Definition pstep (append : bool) (v : val) (p : option val) : option val :=
  match v, p with
  | VList _, None => Some v
  | VList l, Some (VList o) => Some (VList (joined append o l))
  | VDict _, None => Some (VDict (adjust_path_list append v []))
  | VDict _, Some (VDict pd) => Some (VDict (adjust_path_list append v pd))
  | _, _ => p
  end.

Lemma apl_dget : forall append a paths k, NoDup (dkeys a) ->
  dget k (adjust_path_list append (VDict a) paths) =
  match dget k a with Some v => pstep append v (dget k paths) | None => dget k paths end.
Proof.
  intros append. induction a as [|[k0 v0] r IH]; intros paths k N; [reflexivity|].
  inversion N as [|? ? N1 N2]; subst. fold (dkeys r) in N1, N2.
  set (p1 := match v0 with
             | VList l => match dget k0 paths with
                          | None => dset k0 v0 paths
                          | Some (VList o) => dset k0 (VList (if append then o ++ l else l ++ o)) paths
                          | Some _ => paths end
             | VDict _ => match dget k0 paths with
                          | None => dset k0 (VDict (adjust_path_list append v0 [])) paths
                          | Some (VDict pd) => dset k0 (VDict (adjust_path_list append v0 pd)) paths
                          | Some _ => paths end
             | _ => paths end).
  assert (E : adjust_path_list append (VDict ((k0, v0) :: r)) paths = adjust_path_list append (VDict r) p1).
  { unfold p1. destruct v0; reflexivity. }
  rewrite E, (IH p1 k N2). clear E. cbn [dget].
  assert (P1 : forall x, x <> k0 -> dget x p1 = dget x paths).
  { intros x NX. unfold p1. destruct v0; try reflexivity; destruct (dget k0 paths) as [y|]; try (apply dget_dset_other; exact NX);
      destruct y; try reflexivity; apply dget_dset_other; exact NX. }
  destruct (String.eqb_spec k k0) as [Q|Q].
  - subst k0. assert (DN : dget k r = None) by (apply dget_None; exact N1). rewrite DN. unfold p1, pstep, joined.
    destruct v0; try reflexivity; destruct (dget k paths) as [y|] eqn:DY; try apply dget_dset_same;
      destruct y; try exact DY; apply dget_dset_same.
  - rewrite P1 by exact Q. reflexivity.
Qed.

Lemma overridden_nil_dict : forall q, overridden q (VDict []) -> q = [].
Proof.
  intros q H. destruct q as [|k q]; [reflexivity|]. exfalso. rewrite overridden_cons in H. destruct H as [x [E _]]. discriminate E.
Qed.

Lemma leaf_key : forall k q d x, leaf (k :: q) (VDict d) x <-> exists y, dget k d = Some y /\ leaf q y x.
Proof.
  intros k q d x. unfold leaf. cbn [lookup]. destruct (dget k d) as [y|].
  - split; [intros H; exists y; split; [reflexivity|exact H]|]. intros [z [E H]]. injection E as E. subst z. exact H.
  - split; [intros [H _]; discriminate H|]. intros [z [E _]]. discriminate E.
Qed.

Lemma leaf_scalar : forall q v x, is_dict v = false -> (leaf q v x <-> q = [] /\ x = v).
Proof.
  intros q v x S. unfold leaf. destruct q as [|k q].
  - cbn [lookup]. split; [intros [E _]; injection E as E; subst; split; reflexivity|]. intros [_ E]. subst. split; [reflexivity|exact S].
  - cbn [lookup]. destruct v; try discriminate S; (split; [intros [E _]; discriminate E|intros [E _]; discriminate E]).
Qed.

Lemma lookup_scalar_list : forall q v l, is_dict v = false -> lookup q v = Some (VList l) -> q = [] /\ v = VList l.
Proof.
  intros q v l S L. destruct q as [|k q]; [injection L as L; subst; split; reflexivity|]. destruct v; try discriminate S; discriminate L.
Qed.

(* Values of a tree of search paths after elements were added in front of or behind its lists. *)
Theorem paths_adjusted_exact : forall append q a paths x, wf (VDict a) ->
  leaf q (VDict (adjust_path_list append (VDict a) paths)) x <->
  (exists l, lookup q (VDict a) = Some (VList l) /\
     ((exists o, lookup q (VDict paths) = Some (VList o) /\ x = VList (if append then o ++ l else l ++ o)) \/
      (~ overridden q (VDict paths) /\ x = VList l))) \/
  (leaf q (VDict paths) x /\ ~ (exists l o, lookup q (VDict a) = Some (VList l) /\ x = VList o)).
Proof.
  intros append. induction q as [|k q IH]; intros a paths x W.
  - unfold leaf. cbn [lookup]. split.
    + intros [E F]. injection E as E. subst x. discriminate F.
    + intros [[l [E _]]|[[E F] _]]; [discriminate E|]. injection E as E. subst x. discriminate F.
  - pose proof W as W0. apply wf_VDict in W0. destruct W0 as [ND _].
    setoid_rewrite overridden_cons. setoid_rewrite leaf_key. rewrite (apl_dget append a paths k ND). cbn [lookup].
    destruct (dget k a) as [v|] eqn:DA.
    2:{ split; [intros H; right; split; [exact H|intros [l [o [E _]]]; discriminate E]|intros [[l [E _]]|[H _]]; [discriminate E|exact H]]. }
    pose proof (wf_dget _ _ _ W DA) as WV.
    destruct v as [|b|z|s|lv|d].
    1-4: (cbn [pstep]; split;
      [intros H; right; split; [exact H|intros [l [o [E _]]]; apply lookup_scalar_list in E; [destruct E as [_ E]; discriminate E|reflexivity]]
      |intros [[l [E _]]|[H _]]; [apply lookup_scalar_list in E; [destruct E as [_ E]; discriminate E|reflexivity]|exact H]]).
    + (* a list *)
      destruct (dget k paths) as [p|] eqn:DP; cbn [pstep].
      * assert (SC : forall y, is_dict y = false -> (forall o, y <> VList o) ->
          ((exists z, Some y = Some z /\ leaf q z x) <->
           (exists l, lookup q (VList lv) = Some (VList l) /\
             ((exists o, lookup q y = Some (VList o) /\ x = VList (if append then o ++ l else l ++ o)) \/
              (~ (exists z, Some y = Some z /\ overridden q z) /\ x = VList l))) \/
           ((exists z, Some y = Some z /\ leaf q z x) /\ ~ (exists l o, lookup q (VList lv) = Some (VList l) /\ x = VList o)))).
        { intros y SY NL. split.
          - intros [z [E L]]. injection E as E. subst z. right. split; [exists y; split; [reflexivity|exact L]|].
            intros [l [o [_ EX]]]. apply leaf_scalar in L; [|exact SY]. destruct L as [_ L]. subst. exact (NL o eq_refl).
          - intros [[l [E [[o [EO _]]|[NO _]]]]|[H _]]; [| |exact H].
            + exfalso. apply lookup_scalar_list in EO; [|exact SY]. destruct EO as [_ EO]. exact (NL o EO).
            + exfalso. apply NO. exists y. split; [reflexivity|]. apply lookup_scalar_list in E; [|reflexivity]. destruct E as [E _]. subst q.
              left. exists y. reflexivity. }
        destruct p as [|b|z|s|po|pd].
        1-4: (apply SC; [reflexivity|intros o Q; discriminate Q]).
        -- split.
           ++ intros [z [E L]]. injection E as E. subst z. apply leaf_scalar in L; [|reflexivity]. destruct L as [L1 L2]. subst q x.
              left. exists lv. split; [reflexivity|]. left. exists po. split; reflexivity.
           ++ intros [[l [E [[o [EO EX]]|[NO _]]]]|[[z [E L]] NX]].
              ** apply lookup_scalar_list in E; [|reflexivity]. destruct E as [E1 E2]. injection E2 as E2. subst q l.
                 cbn [lookup] in EO. injection EO as EO. subst o. eexists. split; [reflexivity|]. subst x. apply leaf_scalar; [reflexivity|]. split; reflexivity.
              ** exfalso. apply NO. exists (VList po). split; [reflexivity|]. apply lookup_scalar_list in E; [|reflexivity]. destruct E as [E _]. subst q.
                 left. eexists. reflexivity.
              ** exfalso. injection E as E. subst z. apply leaf_scalar in L; [|reflexivity]. destruct L as [L1 L2]. subst q x.
                 apply NX. exists lv, po. split; reflexivity.
        -- split.
           ++ intros [z [E L]]. right. split; [exists z; split; [exact E|exact L]|]. intros [l [o [EQ _]]].
              apply lookup_scalar_list in EQ; [|reflexivity]. destruct EQ as [EQ _]. subst q. injection E as E. subst z.
              destruct L as [L1 L2]. cbn [lookup] in L1. injection L1 as L1. subst x. discriminate L2.
           ++ intros [[l [E [[o [EO _]]|[NO _]]]]|[H _]]; [| |exact H]; exfalso; apply lookup_scalar_list in E; try reflexivity; destruct E as [E _]; subst q.
              ** discriminate EO.
              ** apply NO. exists (VDict pd). split; [reflexivity|]. left. eexists. reflexivity.
      * split.
        -- intros [z [E L]]. injection E as E. subst z. apply leaf_scalar in L; [|reflexivity]. destruct L as [L1 L2]. subst q x.
           left. exists lv. split; [reflexivity|]. right. split; [|reflexivity]. intros [z [E _]]. discriminate E.
        -- intros [[l [E [[o [EO _]]|[_ EX]]]]|[[z [E _]] _]]; [discriminate EO| |discriminate E].
           apply lookup_scalar_list in E; [|reflexivity]. destruct E as [E1 E2]. injection E2 as E2. subst q l x.
           eexists. split; [reflexivity|]. apply leaf_scalar; [reflexivity|]. split; reflexivity.
    + (* a dictionary *)
      destruct (dget k paths) as [p|] eqn:DP; cbn [pstep].
      * assert (SC : forall y, is_dict y = false ->
          ((exists z, Some y = Some z /\ leaf q z x) <->
           (exists l, lookup q (VDict d) = Some (VList l) /\
             ((exists o, lookup q y = Some (VList o) /\ x = VList (if append then o ++ l else l ++ o)) \/
              (~ (exists z, Some y = Some z /\ overridden q z) /\ x = VList l))) \/
           ((exists z, Some y = Some z /\ leaf q z x) /\ ~ (exists l o, lookup q (VDict d) = Some (VList l) /\ x = VList o)))).
        { intros y SY. split.
          - intros [z [E L]]. injection E as E. subst z. right. split; [exists y; split; [reflexivity|exact L]|].
            intros [l [o [EL _]]]. apply leaf_scalar in L; [|exact SY]. destruct L as [L _]. subst q. discriminate EL.
          - intros [[l [E [[o [EO _]]|[NO _]]]]|[H _]]; [| |exact H].
            + exfalso. apply lookup_scalar_list in EO; [|exact SY]. destruct EO as [EO _]. subst q. discriminate E.
            + exfalso. apply NO. exists y. split; [reflexivity|]. right. exists [], q, y. split; [reflexivity|]. split; [reflexivity|exact SY]. }
        destruct p as [|b|z|s|po|pd].
        1-5: (apply SC; reflexivity).
        assert (EX : forall (P : val -> Prop) y, (exists z, Some y = Some z /\ P z) <-> P y).
        { intros P y. split; [intros [z [E H]]; injection E as E; subst z; exact H|intros H; exists y; split; [reflexivity|exact H]]. }
        setoid_rewrite EX. apply IH. exact WV.
      * assert (EX : forall (P : val -> Prop) y, (exists z, Some y = Some z /\ P z) <-> P y).
        { intros P y. split; [intros [z [E H]]; injection E as E; subst z; exact H|intros H; exists y; split; [reflexivity|exact H]]. }
        rewrite EX, (IH d [] x WV). split.
        -- intros [[l [E [[o [EO _]]|[NO EQ]]]]|[[L1 L2] _]].
           ++ destruct q as [|k1 q]; [discriminate E|discriminate EO].
           ++ left. exists l. split; [exact E|]. right. split; [|exact EQ]. intros [z [Q _]]. discriminate Q.
           ++ destruct q as [|k1 q]; [injection L1 as L1; subst x; discriminate L2|discriminate L1].
        -- intros [[l [E [[o [EO _]]|[_ EQ]]]]|[[z [E _]] _]]; [discriminate EO| |discriminate E].
           left. exists l. split; [exact E|]. right. split; [|exact EQ]. intros OV. apply overridden_nil_dict in OV. subst q. discriminate E.
Qed.

Lemma apl_over : forall append q a paths, wf (VDict a) ->
  overridden q (VDict (adjust_path_list append (VDict a) paths)) -> overridden q (VDict paths) \/ overridden q (VDict a).
Proof.
  intros append. induction q as [|k q IH]; intros a paths W H; [left; apply overridden_nil|].
  pose proof W as W0. apply wf_VDict in W0. destruct W0 as [ND _].
  rewrite overridden_cons in H. destruct H as [x [E O]]. rewrite (apl_dget append a paths k ND) in E.
  rewrite !overridden_cons. destruct (dget k a) as [v|] eqn:DA; [|left; exists x; split; [exact E|exact O]].
  pose proof (wf_dget _ _ _ W DA) as WV. destruct v as [|b|z|s|lv|d].
  1-5: (right; eexists; split; [reflexivity|apply overridden_scalar; reflexivity]).
  destruct (dget k paths) as [p|] eqn:DP; cbn [pstep] in E.
  - destruct p as [|b|z|s|po|pd].
    1-5: (left; eexists; split; [reflexivity|apply overridden_scalar; reflexivity]).
    injection E as E. subst x. destruct (IH d pd WV O) as [Q|Q]; [left; eexists; split; [reflexivity|exact Q]|right; eexists; split; [reflexivity|exact Q]].
  - injection E as E. subst x. destruct (IH d [] WV O) as [Q|Q]; [|right; eexists; split; [reflexivity|exact Q]].
    apply overridden_nil_dict in Q. subst q. right. eexists. split; [reflexivity|apply overridden_nil].
Qed.

(* the elements a tree of search paths has at path q: nothing, or a list *)
Definition elements (t : val) (q : list string) (l : list val) : Prop :=
  lookup q t = Some (VList l) \/ (~ overridden q t /\ l = []).

(* the adjustments the paths ask for *)
Definition adjustment (paths : dict val) (key : string) (a : dict val) : Prop :=
  (dget key paths = Some (VDict a) \/ (dget key paths = None /\ a = [])) /\ dget "prepend" a = None /\ dget "append" a = None.

Lemma lookup_over : forall q t v, lookup q t = Some v -> overridden q t.
Proof. intros q t v L. left. exists v. exact L. Qed.

Lemma apl_elements : forall append q a paths l o, wf (VDict a) -> elements (VDict a) q l -> elements (VDict paths) q o ->
  elements (VDict (adjust_path_list append (VDict a) paths)) q (joined append o l) /\
  (lookup q (VDict a) = Some (VList l) \/ lookup q (VDict paths) = Some (VList o) ->
   lookup q (VDict (adjust_path_list append (VDict a) paths)) = Some (VList (joined append o l))).
Proof.
  intros append q a paths l o W EA EP.
  assert (PRES : lookup q (VDict a) = Some (VList l) \/ lookup q (VDict paths) = Some (VList o) ->
     lookup q (VDict (adjust_path_list append (VDict a) paths)) = Some (VList (joined append o l))).
  { intros H. enough (L : leaf q (VDict (adjust_path_list append (VDict a) paths)) (VList (joined append o l))) by exact (proj1 L).
    apply paths_adjusted_exact; [exact W|]. destruct EA as [EA|[NA E]].
    - left. exists l. split; [exact EA|]. destruct EP as [EP|[NP E]].
      + left. exists o. split; [exact EP|reflexivity].
      + right. split; [exact NP|]. subst o. unfold joined. destruct append; [reflexivity|rewrite app_nil_r; reflexivity].
    - destruct H as [H|H]; [exfalso; exact (NA (lookup_over _ _ _ H))|]. right. subst l. split.
      + assert (J : joined append o [] = o) by (unfold joined; destruct append; [apply app_nil_r|reflexivity]). rewrite J. split; [exact H|reflexivity].
      + intros [l [o2 [E2 _]]]. exact (NA (lookup_over _ _ _ E2)). }
  split; [|exact PRES].
  destruct EA as [EA|[NA E1]]; [left; apply PRES; left; exact EA|]. destruct EP as [EP|[NP E2]]; [left; apply PRES; right; exact EP|].
  right. subst l o. split; [|unfold joined; destruct append; reflexivity].
  intros O. apply apl_over in O; [|exact W]. destruct O as [O|O]; contradiction.
Qed.

Lemma apl_nil : forall append paths, adjust_path_list append (VDict []) paths = paths.
Proof. reflexivity. Qed.

Lemma lookup_dpop : forall k q key d, k <> key -> lookup (k :: q) (VDict (dpop key d)) = lookup (k :: q) (VDict d).
Proof. intros k q key d N. cbn [lookup]. rewrite dget_dpop_other by exact N. reflexivity. Qed.

Lemma over_dpop : forall k q key d, k <> key -> (overridden (k :: q) (VDict (dpop key d)) <-> overridden (k :: q) (VDict d)).
Proof. intros k q key d N. rewrite !overridden_cons, dget_dpop_other by exact N. reflexivity. Qed.

Lemma dpop_none : forall key (d : dict val), dget key d = None -> dpop key d = d.
Proof.
  intros key d. induction d as [|[k v] r IH]; intros H; [reflexivity|]. cbn [dget] in H. unfold dpop in *. cbn [filter fst].
  destruct (String.eqb_spec key k) as [E|E]; [discriminate H|]. cbn [negb]. rewrite (IH H). reflexivity.
Qed.

(* Elements to prepend come first, then the existing elements, then those to append; the requests are removed. *)
Theorem search_paths_exact : forall paths pre app k q l o a, wf (VDict paths) ->
  adjustment paths "prepend" pre -> adjustment paths "append" app -> k <> "prepend" -> k <> "append" ->
  elements (VDict pre) (k :: q) l -> elements (VDict paths) (k :: q) o -> elements (VDict app) (k :: q) a ->
  (lookup (k :: q) (VDict pre) = Some (VList l) \/ lookup (k :: q) (VDict paths) = Some (VList o) \/ lookup (k :: q) (VDict app) = Some (VList a) ->
   lookup (k :: q) (VDict (adjust_paths paths)) = Some (VList (l ++ o ++ a))) /\
  ~ In "prepend" (dkeys (adjust_paths paths)) /\ ~ In "append" (dkeys (adjust_paths paths)).
Proof.
  intros paths pre app k q l o a W [HP [PP PA]] [HA [AP AA]] K1 K2 EL EO EA.
  assert (WP : wf (VDict pre)).
  { destruct HP as [H|[_ H]]; [exact (wf_dget _ _ _ W H)|subst; apply wf_VDict; split; [constructor|intros x y []]]. }
  assert (WA : wf (VDict app)).
  { destruct HA as [H|[_ H]]; [exact (wf_dget _ _ _ W H)|subst; apply wf_VDict; split; [constructor|intros x y []]]. }
  pose proof WP as WP0. apply wf_VDict in WP0. destruct WP0 as [NP _]. pose proof WA as WA0. apply wf_VDict in WA0. destruct WA0 as [NA _].
  assert (S1 : adjust_with "prepend" false paths = dpop "prepend" (adjust_path_list false (VDict pre) paths)).
  { unfold adjust_with. destruct HP as [H|[H E]]; rewrite H; [reflexivity|]. subst pre. rewrite apl_nil. symmetry. apply dpop_none. exact H. }
  set (p1 := dpop "prepend" (adjust_path_list false (VDict pre) paths)) in *.
  assert (D1 : dget "append" p1 = dget "append" paths).
  { unfold p1. rewrite dget_dpop_other by discriminate. rewrite (apl_dget false pre paths "append" NP), PA. reflexivity. }
  assert (D0 : dget "prepend" p1 = None) by apply dget_dpop_same.
  assert (S2 : adjust_paths paths = dpop "append" (adjust_path_list true (VDict app) p1)).
  { unfold adjust_paths. rewrite S1. unfold adjust_with. rewrite D1. destruct HA as [H|[H E]]; rewrite H; [reflexivity|].
    subst app. rewrite apl_nil. symmetry. apply dpop_none. rewrite D1. exact H. }
  destruct (apl_elements false (k :: q) pre paths l o WP EL EO) as [E1 P1]. cbn [joined] in E1, P1.
  assert (E2 : elements (VDict p1) (k :: q) (l ++ o)).
  { unfold elements in *. unfold p1. rewrite lookup_dpop, over_dpop by exact K1. exact E1. }
  destruct (apl_elements true (k :: q) app p1 a (l ++ o) WA EA E2) as [E3 P3]. cbn [joined] in E3, P3.
  rewrite S2. split; [|split].
  - intros H. rewrite lookup_dpop by exact K2. rewrite app_assoc. apply P3. destruct H as [H|[H|H]]; [right|right|left; exact H].
    + unfold p1. rewrite lookup_dpop by exact K1. apply P1. left; exact H.
    + unfold p1. rewrite lookup_dpop by exact K1. apply P1. right; exact H.
  - apply dget_None. rewrite dget_dpop_other by discriminate. rewrite (apl_dget true app p1 "prepend" NA), AP. exact D0.
  - apply dget_None. apply dget_dpop_same.
Qed.

(* A value that is not a list does not change. *)
Theorem other_paths_kept : forall paths pre app k q x, wf (VDict paths) ->
  adjustment paths "prepend" pre -> adjustment paths "append" app -> k <> "prepend" -> k <> "append" ->
  leaf (k :: q) (VDict paths) x -> (forall o, x <> VList o) -> leaf (k :: q) (VDict (adjust_paths paths)) x.
Proof.
  intros paths pre app k q x W [HP [PP PA]] [HA [AP AA]] K1 K2 L NL.
  assert (WP : wf (VDict pre)).
  { destruct HP as [H|[_ H]]; [exact (wf_dget _ _ _ W H)|subst; apply wf_VDict; split; [constructor|intros y z []]]. }
  assert (WA : wf (VDict app)).
  { destruct HA as [H|[_ H]]; [exact (wf_dget _ _ _ W H)|subst; apply wf_VDict; split; [constructor|intros y z []]]. }
  pose proof WP as WP0. apply wf_VDict in WP0. destruct WP0 as [NP _].
  assert (KEEP : forall append a p, wf (VDict a) -> leaf (k :: q) (VDict p) x -> leaf (k :: q) (VDict (adjust_path_list append (VDict a) p)) x).
  { intros append a p WF LP. apply paths_adjusted_exact; [exact WF|]. right. split; [exact LP|]. intros [l [o [_ E]]]. exact (NL o E). }
  assert (POP : forall key d, k <> key -> leaf (k :: q) (VDict d) x -> leaf (k :: q) (VDict (dpop key d)) x).
  { intros key d N [A B]. split; [rewrite lookup_dpop by exact N; exact A|exact B]. }
  assert (L1 : leaf (k :: q) (VDict (adjust_with "prepend" false paths)) x).
  { unfold adjust_with. destruct HP as [H|[H E]]; rewrite H; [|exact L]. apply POP; [exact K1|]. apply KEEP; [exact WP|exact L]. }
  assert (D1 : dget "append" (adjust_with "prepend" false paths) = dget "append" paths).
  { unfold adjust_with. destruct HP as [H|[H E]]; rewrite H; [|reflexivity]. rewrite dget_dpop_other by discriminate.
    rewrite (apl_dget false pre paths "append" NP), PA. reflexivity. }
  unfold adjust_paths. set (p1 := adjust_with "prepend" false paths) in *. clearbody p1. unfold adjust_with. rewrite D1.
  destruct HA as [H|[H E]]; rewrite H; [|exact L1]. apply POP; [exact K2|]. apply KEEP; [exact WA|exact L1].
Qed.

Example ex_paths :
  adjust_paths [("custom", VDict [("dirs", VList [VStr "topology:"; VStr "."])]); ("plugin", VList [VStr "package:extra"]);
                ("prepend", VDict [("plugin", VList [VStr "~/mine"]); ("custom", VDict [("dirs", VList [VStr "a"]); ("files", VList [VStr "f"])])]);
                ("append", VDict [("custom", VDict [("dirs", VList [VStr "z"])])])] =
  [("custom", VDict [("dirs", VList [VStr "a"; VStr "topology:"; VStr "."; VStr "z"]); ("files", VList [VStr "f"])]);
   ("plugin", VList [VStr "~/mine"; VStr "package:extra"])].
Proof. reflexivity. Qed.

(* A single directory to prepend is dropped without an error, although a search path can be a single directory. *)
Theorem path_string_refuted :
  adjust_paths [("plugin", VList [VStr "package:extra"]); ("prepend", VDict [("plugin", VStr "~/mine")])] =
  [("plugin", VList [VStr "package:extra"])].
Proof. reflexivity. Qed.

Print Assumptions datatypes_copied.
Print Assumptions attributes_adjusted.
Print Assumptions definitions_copied.
Print Assumptions definition_errors.
Print Assumptions definition_errors_only.
Print Assumptions copy_chain_refuted.
Print Assumptions paths_adjusted_exact.
Print Assumptions search_paths_exact.
Print Assumptions other_paths_kept.
Print Assumptions path_string_refuted.
