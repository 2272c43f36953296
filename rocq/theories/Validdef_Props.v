(* Attribute definitions: how the flags, lists and shortcuts of the definitions are read *)
From Coq Require Import String Ascii ZArith Bool List.
From Verif Require Import Base Box_Model Valid_Model Valid_Props.
Import ListNotations.
Open Scope string_scope.

(* A text is the value or an element of the value *)
Definition named (x : string) (v : val) : Prop := v = VStr x \/ exists l, v = VList l /\ In (VStr x) l.

Lemma strings_named : forall v x, In x (strings v) <-> named x v.
Proof.
  intros v x. unfold named. destruct v; simpl;
    try (split; [intros []|intros [E|[l [E _]]]; discriminate]).
  - split; [intros [->|[]]; auto|]. intros [E|[l [E _]]]; [inversion E; auto|discriminate].
  - rewrite in_flat_map. split.
    + intros [y [Y1 Y2]]. right. exists l. split; auto. destruct y; simpl in Y2; try contradiction.
      destruct Y2 as [<-|[]]. exact Y1.
    + intros [E|[l' [E H]]]; [discriminate|]. inversion E; subst. exists (VStr x). split; auto. left; auto.
Qed.

(* An attribute is required when its definition is a dictionary whose _required value is true *)
Theorem required_flag_exact : forall s, required s = true <->
  exists d x, s = VDict d /\ dget "_required" d = Some x /\
    ~ In x [VNull; VBool false; VInt 0; VStr ""; VList []; VDict []].
Proof.
  intros s. split.
  - destruct s; simpl; try discriminate. intros H. destruct (dget "_required" d) as [x|] eqn:E; [|discriminate].
    exists d, x. split; [reflexivity|]. split; [auto|]. simpl.
    intros [<-|[<-|[<-|[<-|[<-|[<-|[]]]]]]]; discriminate.
  - intros [d [x [-> [E N]]]]. simpl. rewrite E. destruct x; simpl in *.
    + exfalso. apply N. auto.
    + destruct b; [reflexivity|exfalso; apply N; auto].
    + destruct (Z.eqb z 0) eqn:Z; [|reflexivity]. apply Z.eqb_eq in Z. subst. exfalso; apply N. auto.
    + destruct (String.eqb s "") eqn:Z; [|reflexivity]. apply String.eqb_eq in Z. subst. exfalso; apply N. auto 6.
    + destruct l; [|reflexivity]. exfalso; apply N. auto 7.
    + destruct d0; [|reflexivity]. exfalso; apply N. auto 8.
Qed.

(* A module may be true or false for an object when one of the names of the object is on the list of the definitions *)
Theorem flag_list_exact : forall key attributes ns, can_be key attributes ns = true <->
  exists n v, In n ns /\ dget key attributes = Some v /\ named n v.
Proof.
  intros key attributes ns. unfold can_be. rewrite existsb_exists. unfold strings_at. split.
  - intros [n [H E]]. apply memS_true in E. destruct (dget key attributes) as [v|]; [|destruct E].
    exists n, v. split; auto. split; auto. now apply strings_named.
  - intros [n [v [H [E N]]]]. exists n. split; auto. rewrite E. apply memS_true. now apply strings_named.
Qed.

(* An attribute excludes the attributes not on its _valid_with list; the definitions are in _keys, if there are any *)
Theorem exclusion_exact : forall dt a x, excludes (keys_of dt) a x <->
  exists ks d l, match dget "_keys" dt with Some v => v = VDict ks | None => ks = dt end /\
    dget a ks = Some (VDict d) /\ dget "_valid_with" d = Some l /\ ~ named x l /\ x <> a /\ prefix "_" x = false.
Proof.
  intros dt a x. unfold excludes. split.
  - intros [ok [W [N [M P]]]]. unfold with_list, keys_of in W.
    assert (K : exists ks, match dget "_keys" dt with Some v => v = VDict ks | None => ks = dt end /\
              keys_of dt = ks).
    { unfold keys_of. destruct (dget "_keys" dt) as [v|]; [|eauto].
      destruct v; simpl in W; try discriminate. exists d. auto. }
    destruct K as [ks [K1 K2]]. unfold keys_of in K2. rewrite K2 in W.
    destruct (dget a ks) as [v|] eqn:D; [|discriminate]. destruct v; try discriminate.
    destruct (dget "_valid_with" d) as [l|] eqn:L; [|discriminate]. inversion W; subst ok.
    exists ks, d, l. repeat split; auto. intros Q. apply M. now apply strings_named.
  - intros [ks [d [l [K [D [L [M [N P]]]]]]]]. exists (strings l).
    assert (Q : keys_of dt = ks). { unfold keys_of. destruct (dget "_keys" dt); subst; reflexivity. }
    rewrite Q. unfold with_list. rewrite D, L. repeat split; auto. intros H. apply M. now apply strings_named.
Qed.

Lemma dget_filter : forall (p : string -> bool) (d : dict val) k,
  dget k (filter (fun kv => p (fst kv)) d) = if p k then dget k d else None.
Proof.
  intros p. induction d as [|[k0 v0] d IH]; intros k; simpl; [now destruct (p k)|].
  destruct (p k0) eqn:P; simpl.
  - destruct (String.eqb k k0) eqn:E; auto. apply String.eqb_eq in E. subst. now rewrite P.
  - rewrite IH. destruct (String.eqb k k0) eqn:E; auto. apply String.eqb_eq in E. subst. now rewrite P.
Qed.

(* The definition a text refers to *)
Definition resolved_as (topo : dict val) (s t : val) : Prop :=
  (exists n, s = VStr n /\ dget n topo = Some t) \/ ((forall n, s = VStr n -> dget n topo = None) /\ t = s).

(* Shortcuts: a text is a type or a user-defined type; a list is a list with valid values; a dictionary without a
   type is a dictionary with these keys, keeping the internal attributes. Everything else is a fatal error. *)
Theorem definition_shortcuts_exact : forall topo s t, resolved_as topo s t ->
  match transform topo s with
  | None => match t with VStr _ | VDict _ | VList _ => False | _ => True end
  | Some dt =>
      (forall n, t = VStr n -> dget "type" dt = Some (VStr n) /\ forall k, k <> "type" -> dget k dt = None) /\
      (forall l, t = VList l -> dget "type" dt = Some (VStr "list") /\ dget "valid_values" dt = Some (VList l) /\
         forall k, k <> "type" -> k <> "valid_values" -> dget k dt = None) /\
      (forall d, t = VDict d ->
         (dget "type" d <> None -> dt = d) /\
         (dget "type" d = None -> dget "type" dt = Some (VStr "dict") /\
            (exists ks, dget "_keys" dt = Some (VDict ks) /\
               forall k, dget k ks = if prefix "_" k then None else dget k d) /\
            forall k, k <> "type" -> k <> "_keys" -> dget k dt = if prefix "_" k then dget k d else None)) /\
      (exists n l d, t = VStr n \/ t = VList l \/ t = VDict d)
  end.
Proof.
  intros topo s t R.
  assert (E : (match s with VStr n => match dget n topo with Some x => x | None => s end | _ => s end) = t).
  { destruct R as [[n [-> ->]]|[N ->]]; auto. destruct s as [| | |n| |]; auto. now rewrite (N n eq_refl). }
  unfold transform. rewrite E. clear E R. destruct t as [| |z|n|l|d]; auto.
  - split; [|split; [intros; discriminate|split; [intros; discriminate|exists n, [], []; auto]]].
    intros m Q. inversion Q; subst. split; [reflexivity|]. intros k K. simpl. apply String.eqb_neq in K. now rewrite K.
  - split; [intros; discriminate|]. split; [|split; [intros; discriminate|exists "", l, []; auto]].
    intros m Q. inversion Q; subst. split; [reflexivity|]. split; [reflexivity|]. intros k K1 K2. simpl.
    apply String.eqb_neq in K1. apply String.eqb_neq in K2. now rewrite K1, K2.
  - destruct (dmem "type" d) eqn:M.
    + split; [intros; discriminate|]. split; [intros; discriminate|]. split; [|exists "", [], d; auto].
      intros m Q. inversion Q; subst. split; auto. intros T. unfold dmem in M. rewrite T in M. discriminate.
    + split; [intros; discriminate|]. split; [intros; discriminate|]. split; [|exists "", [], d; auto].
      intros m Q. inversion Q; subst. split; [intros T; unfold dmem in M; destruct (dget "type" m); [discriminate|congruence]|].
      intros _. split; [rewrite dget_dset_other by discriminate; apply dget_dset_same|]. split.
      * eexists. split; [apply dget_dset_same|]. intros k. rewrite (dget_filter (fun k => negb (is_internal k))).
        unfold is_internal, starts_with. destruct (prefix "_" k); reflexivity.
      * intros k K1 K2. rewrite dget_dset_other by auto. rewrite dget_dset_other by auto.
        apply (dget_filter is_internal).
Qed.

Example ex_shortcut_dict : transform [] (VDict [("_requires", VStr "bgp"); ("as", VStr "int")])
  = Some [("_requires", VStr "bgp"); ("type", VStr "dict"); ("_keys", VDict [("as", VStr "int")])].
Proof. reflexivity. Qed.
Example ex_user_type : resolved_as [("area", VDict [("type", VStr "ipv4")])] (VStr "area") (VDict [("type", VStr "ipv4")]).
Proof. left. exists "area". auto. Qed.
Example ex_required : required (VDict [("type", VStr "int"); ("_required", VBool true)]) = true
  /\ required (VDict [("type", VStr "int"); ("_required", VBool false)]) = false.
Proof. auto. Qed.
Example ex_can_be : can_be "can_be_false" [("can_be_false", VList [VStr "link"; VStr "interface"])] ["node"; "link"] = true
  /\ can_be "can_be_false" [("can_be_false", VList [VStr "link"; VStr "interface"])] ["node"] = false.
Proof. auto. Qed.
Example ex_exclusion : excludes (keys_of [("type", VStr "dict"); ("_keys", VDict [("ipv4", VDict [("_valid_with", VList [VStr "ipv6"])])])]) "ipv4" "pool".
Proof. apply exclusion_exact. do 3 eexists. split; [reflexivity|]. split; [reflexivity|]. split; [reflexivity|].
  split; [|split; [discriminate|reflexivity]]. intros [E|[l [E H]]]; [discriminate|]. inversion E; subst.
  destruct H as [H|[]]. discriminate. Qed.

Print Assumptions required_flag_exact.
Print Assumptions flag_list_exact.
Print Assumptions exclusion_exact.
Print Assumptions definition_shortcuts_exact.
