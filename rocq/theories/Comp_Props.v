(* Properties C119: included components. *)
From Coq Require Import String Ascii ZArith Lia Bool List.
From Verif Require Import Base Box_Model Box_Props Dev_Model Text_Model Text_Props Types_Model Types_Props
  Intf_Model Lnk_Model Lnk_Props Lnkgrp_Props Comp_Model.
Import ListNotations.
Local Open Scope string_scope.
Local Open Scope list_scope.
Local Open Scope nat_scope.

(* ---------- specification ---------- *)

(* an identifier with at most 16 characters *)
Definition ident (s : string) : Prop :=
  exists c r, s = String c r /\ id_start c = true /\
    (forall x, In x (list_ascii_of_string r) -> id_char x = true) /\ String.length s <= 16.

(* the name of a node included under the name [n] *)
Definition under (n x : string) : string := (n ++ "_" ++ x)%string.

Definition renamed (n : string) (i i' : dict val) : Prop :=
  (forall s, dget "node" i = Some (VStr s) -> dget "node" i' = Some (VStr (under n s))) /\
  (forall k, k <> "node" -> dget k i' = dget k i).

(* a copy of a component link: the link name and the node names are prefixed, everything else is copied
   apart from the link index *)
Definition copied (n : string) (l l' : link) : Prop :=
  (forall ln, dget "_linkname" l = Some (VStr ln) -> dget "_linkname" l' = Some (VStr (under n ln))) /\
  (forall ifs, interfaces_are l ifs -> exists ifs', interfaces_are l' ifs' /\ Forall2 (renamed n) ifs ifs') /\
  (forall k, ~ In k ["_linkname"; "interfaces"; "linkindex"] -> dget k l' = dget k l).

(* a direct member of the group: a node, or the group of a nested component *)
Definition group_member (n : string) (kv : string * node) (m : string) : Prop :=
  (dget "include" (snd kv) = None /\ m = under n (fst kv)) \/
  (dget "include" (snd kv) <> None /\ m = ("inc_" ++ under n (fst kv))%string).

(* the group of an included component: attributes of the include request, then those of the component *)
Definition group_of (n : string) (req : node) (c : comp) (g : dict val) : Prop :=
  exists ms, Forall2 (group_member n) (c_nodes c) ms /\
  forall k, dget k g =
    match (if in_dec string_dec k ["include"; "interfaces"] then None else dget k req) with
    | Some v => Some v
    | None => match dget k (c_attrs c) with
              | Some v => Some v
              | None => if string_dec k "members" then Some (VList (map VStr ms)) else None
              end
    end.

(* one instance of component [c] under the name [n]: its nodes, links and groups *)
Inductive inst (comps : dict comp) : string -> string -> node -> list (string * node) -> list link ->
    list (string * dict val) -> Prop :=
| inst_comp : forall n c req cc N L own G g,
    dget c comps = Some cc -> inst_nodes comps n (c_nodes cc) N L G -> Forall2 (copied n) (c_links cc) own ->
    group_of n req cc g -> inst comps n c req N (L ++ own) (G ++ [(("inc_" ++ n)%string, g)])
with inst_nodes (comps : dict comp) : string -> list (string * node) -> list (string * node) -> list link ->
    list (string * dict val) -> Prop :=
| in_nil : forall n, inst_nodes comps n [] [] [] []
| in_leaf : forall n x nd r N L G, dget "include" nd = None -> ident (under n x) ->
    inst_nodes comps n r N L G -> inst_nodes comps n ((x, nd) :: r) ((under n x, nd) :: N) L G
| in_include : forall n x nd c r N1 L1 G1 N2 L2 G2, dget "include" nd = Some (VStr c) -> ident (under n x) ->
    inst comps (under n x) c nd N1 L1 G1 -> inst_nodes comps n r N2 L2 G2 ->
    inst_nodes comps n ((x, nd) :: r) (N1 ++ N2) (L1 ++ L2) (G1 ++ G2).

Scheme inst_mind := Minimality for inst Sort Prop
  with inst_nodes_mind := Minimality for inst_nodes Sort Prop.
Combined Scheme inst_mutind from inst_mind, inst_nodes_mind.

(* the include requests of the topology, expanded one by one *)
Inductive insts (comps : dict comp) : list (string * node) -> list (string * node) -> list link ->
    list (string * dict val) -> Prop :=
| is_nil : insts comps [] [] [] []
| is_node : forall n nd r N L G, dget "include" nd = None -> insts comps r N L G -> insts comps ((n, nd) :: r) N L G
| is_include : forall n nd c r N1 L1 G1 N2 L2 G2, dget "include" nd = Some (VStr c) ->
    inst comps n c nd N1 L1 G1 -> insts comps r N2 L2 G2 ->
    insts comps ((n, nd) :: r) (N1 ++ N2) (L1 ++ L2) (G1 ++ G2).

Definition is_request (kv : string * node) : bool := dmem "include" (snd kv).

(* ---------- the pieces ---------- *)

Lemma valid_id_ident : forall s, valid_id s = true <-> ident s.
Proof.
  intros s. unfold valid_id, ident. destruct (must_be_id 16 (VStr s)) as [v| |] eqn:E.
  - split; auto. intros _. assert (v = VStr s).
    { destruct s as [|c r]; [discriminate|]. cbn in E. destruct (_ && _ && _); [injection E as <-; auto|discriminate]. }
    subst v. apply id_exact in E; [exact E|lia].
  - split; [discriminate|]. intros H. apply id_exact in H; [congruence|lia].
  - split; [discriminate|]. intros H. apply id_exact in H; [congruence|lia].
Qed.

Lemma dset_new : forall A k (v : A) d, ~ In k (dkeys d) -> dset k v d = d ++ [(k, v)].
Proof.
  intros A k v. induction d as [|[k' v'] d IH]; intros H; cbn; auto.
  destruct (String.eqb_spec k k') as [->|N]; [exfalso; apply H; left; auto|]. rewrite IH; auto. intros I. apply H. right. auto.
Qed.

Lemma indexed_app : forall L1 M1 i L2 M2, indexed i L1 M1 -> indexed (i + Z.of_nat (length M1)) L2 M2 ->
  indexed i (L1 ++ L2) (M1 ++ M2).
Proof.
  intros L1 M1 i L2 M2 H. revert L2 M2. induction H as [i|i x y l m G K H IH]; intros L2 M2 H2; cbn [app].
  - cbn in H2. rewrite Z.add_0_r in H2. auto.
  - constructor; auto. apply IH. replace (i + 1 + Z.of_nat (length m))%Z with (i + Z.of_nat (length (y :: m)))%Z; auto.
    cbn [Datatypes.length]. unfold link in *. lia.
Qed.

Lemma next_index_app : forall start l L M, indexed (next_index start l) L M ->
  next_index start (l ++ M) = (next_index start l + Z.of_nat (length M))%Z.
Proof.
  intros start l L M H. destruct (rev M) as [|y r] eqn:R.
  - assert (M = []) by (rewrite <- (rev_involutive M), R; auto). subst. rewrite app_nil_r. cbn. lia.
  - assert (E : M = rev r ++ [y]) by (rewrite <- (rev_involutive M), R; auto).
    unfold next_index at 1. rewrite rev_app_distr, R. cbn [app].
    assert (K : nth_error M (length (rev r)) = Some y).
    { rewrite E, nth_error_app2 by lia. rewrite Nat.sub_diag. auto. }
    rewrite (indexed_nth _ _ _ H _ _ K). rewrite E, app_length. cbn [Datatypes.length]. unfold link in *. lia.
Qed.

Lemma include_link_copied : forall n i l, copied n l (include_link n i l).
Proof.
  intros n i l. unfold include_link. split; [|split].
  - intros ln H. rewrite !dget_dset_other by discriminate. rewrite dget_dset_same. unfold link_name. rewrite H. auto.
  - intros ifs H. unfold interfaces_are in *. rewrite dget_dset_same, H.
    exists (map (fun d => match dget "node" d with Some (VStr s) => dset "node" (VStr (sub_name n s)) d | _ => d end) ifs).
    split.
    + f_equal. f_equal. rewrite !map_map. apply map_ext. intros d. cbn. destruct (dget "node" d) as [[]|]; auto.
    + clear H. induction ifs as [|d ifs IH]; cbn; constructor; auto. split.
      * intros s H. rewrite H. apply dget_dset_same.
      * intros k K. destruct (dget "node" d) as [[]|]; auto. apply dget_dset_other. auto.
  - intros k K. cbn in K. rewrite !dget_dset_other by (intros ->; apply K; auto). auto.
Qed.

Lemma include_links_spec : forall start n ls t, exists own M,
  include_links start n ls t = set_links (t_links t ++ M) t /\
  Forall2 (copied n) ls own /\ indexed (next_index start (t_links t)) own M.
Proof.
  intros start n. induction ls as [|l ls IH]; intros t; cbn [include_links].
  - exists [], []. split; [rewrite app_nil_r; destruct t; reflexivity|]. split; constructor.
  - set (i := next_index start (t_links t)).
    destruct (IH (set_links (t_links t ++ [include_link n i l]) t)) as [own [M [E [F X]]]].
    exists (include_link n 0 l :: own), (include_link n i l :: M).
    assert (X1 : indexed i [include_link n 0 l] [include_link n i l]).
    { constructor; [| |constructor].
      - unfold include_link. rewrite dget_dset_other by discriminate. apply dget_dset_same.
      - intros k K. unfold include_link. destruct (string_dec k "interfaces") as [->|K1]; [rewrite !dget_dset_same; auto|].
        rewrite !(dget_dset_other _ _ K1), !(dget_dset_other _ _ K). auto. }
    split; [|split].
    + rewrite E. unfold set_links. cbn [t_nodes t_links t_groups t_errs]. rewrite <- app_assoc. reflexivity.
    + constructor; [apply include_link_copied|auto].
    + cbn [t_links set_links] in X. rewrite (next_index_app _ _ _ _ X1) in X.
      apply (indexed_app [include_link n 0 l] [include_link n i l]); [exact X1|exact X].
Qed.

Lemma set_all_get : forall l g k, NoDup (map fst l) -> dget k (set_all l g) = match dget k l with Some v => Some v | None => dget k g end.
Proof.
  induction l as [|[k' v] l IH]; intros g k N; cbn [set_all dget]; auto. inversion N; subst.
  rewrite IH by auto. destruct (String.eqb_spec k k') as [->|D].
  - rewrite (proj2 (dget_None _ _)); [|auto]. apply dget_dset_same.
  - destruct (dget k l); auto. apply dget_dset_other. auto.
Qed.

Lemma dget_filter_keys : forall (f : string -> bool) (l : dict val) k,
  dget k (filter (fun kv => f (fst kv)) l) = if f k then dget k l else None.
Proof.
  intros f. induction l as [|[k' v] l IH]; intros k; cbn [filter dget fst]; [destruct (f k); auto|].
  destruct (f k') eqn:E; cbn [dget]; rewrite IH; destruct (String.eqb_spec k k') as [->|D]; rewrite ?E; auto.
Qed.

Lemma member_name_spec : forall n l, Forall2 (group_member n) l (map (member_name n) l).
Proof.
  intros n. induction l as [|[x nd] l IH]; cbn [map]; constructor; auto. unfold group_member, member_name, dmem. cbn [fst snd].
  destruct (dget "include" nd); [right|left]; split; auto. discriminate.
Qed.

(* dictionaries have unique keys *)
Definition comp_wf (c : comp) : Prop :=
  NoDup (dkeys (c_attrs c)) /\ forall x nd, In (x, nd) (c_nodes c) -> NoDup (dkeys nd).
Definition comps_wf (comps : dict comp) : Prop := forall k c, dget k comps = Some c -> comp_wf c.

Lemma create_group_spec : forall n req c t, comp_wf c -> NoDup (dkeys req) ->
  t_errs (create_included_group n req c t) = t_errs t ++ (if dmem ("inc_" ++ n) (t_groups t) then [CGroup ("inc_" ++ n)] else []) /\
  t_nodes (create_included_group n req c t) = t_nodes t /\ t_links (create_included_group n req c t) = t_links t /\
  (dmem ("inc_" ++ n) (t_groups t) = false ->
   exists g, group_of n req c g /\ t_groups (create_included_group n req c t) = t_groups t ++ [(("inc_" ++ n)%string, g)]).
Proof.
  intros n req c t W Wr. unfold create_included_group. destruct (dmem ("inc_" ++ n) (t_groups t)) eqn:D; cbn.
  - repeat split; auto. discriminate.
  - rewrite app_nil_r. repeat split; auto. intros _. eexists. split.
    2: { apply dset_new. intros I. apply dmem_true in I. change (dmem ("inc_" ++ n)%string (t_groups t) = true) in I. congruence. }
    exists (map (member_name n) (c_nodes c)). split; [apply member_name_spec|]. intros k.
      rewrite set_all_get.
      * rewrite (dget_filter_keys (fun z => negb (memS z ["include"; "interfaces"]))).
        destruct (in_dec string_dec k ["include"; "interfaces"]) as [I|I].
        -- apply memS_true in I. rewrite I. cbn [negb].
           rewrite set_all_get by exact (proj1 W). destruct (dget k (c_attrs c)); auto. cbn [dget].
           destruct (String.eqb_spec k "members"); destruct (string_dec k "members"); try congruence; auto.
           rewrite map_map. auto.
        -- apply memS_false in I. rewrite I. cbn [negb]. destruct (dget k req); auto.
           rewrite set_all_get by exact (proj1 W). destruct (dget k (c_attrs c)); auto. cbn [dget].
           destruct (String.eqb_spec k "members"); destruct (string_dec k "members"); try congruence; auto.
           rewrite map_map. auto.
      * clear - Wr. induction req as [|[k v] r IH]; cbn in *; [constructor|]. inversion Wr; subst.
        destruct (negb _); cbn; [constructor; auto|auto]. intros I. apply H1. unfold dkeys.
        apply in_map_iff in I. destruct I as [y [<- I]]. apply filter_In in I. apply in_map. tauto.
Qed.

(* ---------- the expansion ---------- *)

Definition adds (start : Z) (t t' : topo) (N : list (string * node)) (L : list link) (G : list (string * dict val)) : Prop :=
  t_nodes t' = t_nodes t ++ N /\
  (exists M, t_links t' = t_links t ++ M /\ indexed (next_index start (t_links t)) L M) /\
  t_groups t' = t_groups t ++ G /\
  (NoDup (dkeys (t_nodes t)) -> NoDup (dkeys (t_nodes t'))) /\
  (NoDup (dkeys (t_groups t)) -> NoDup (dkeys (t_groups t'))).

Lemma adds_refl : forall start t, adds start t t [] [] [].
Proof.
  intros start t. repeat split; rewrite ?app_nil_r; auto. exists []. rewrite app_nil_r. split; [auto|constructor].
Qed.

Lemma adds_trans : forall start t1 t2 t3 N1 L1 G1 N2 L2 G2, adds start t1 t2 N1 L1 G1 -> adds start t2 t3 N2 L2 G2 ->
  adds start t1 t3 (N1 ++ N2) (L1 ++ L2) (G1 ++ G2).
Proof.
  intros start t1 t2 t3 N1 L1 G1 N2 L2 G2 [A1 [[M1 [B1 C1]] [D1 [E1 F1]]]] [A2 [[M2 [B2 C2]] [D2 [E2 F2]]]].
  split; [rewrite A2, A1, app_assoc; auto|]. split; [|split; [rewrite D2, D1, app_assoc; auto|split; auto]].
  exists (M1 ++ M2). split; [rewrite B2, B1, app_assoc; auto|]. apply indexed_app; auto.
  rewrite B1, (next_index_app _ _ _ _ C1) in C2. auto.
Qed.

Definition grows (t t' : topo) : Prop := exists e, t_errs t' = t_errs t ++ e.

Lemma grows_refl : forall t, grows t t.
Proof. intros t. exists []. rewrite app_nil_r. auto. Qed.

Lemma grows_trans : forall t1 t2 t3, grows t1 t2 -> grows t2 t3 -> grows t1 t3.
Proof. intros t1 t2 t3 [e1 E1] [e2 E2]. exists (e1 ++ e2). rewrite E2, E1, app_assoc. auto. Qed.

Lemma grows_err : forall e t, grows t (add_err e t).
Proof. intros e t. exists [e]. auto. Qed.

Lemma grows_nil : forall t t', grows t t' -> t_errs t' = [] -> t_errs t = [].
Proof. intros t t' [e E] H. rewrite H in E. symmetry in E. apply app_eq_nil in E. tauto. Qed.

Lemma grows_add : forall e t t', grows (add_err e t) t' -> t_errs t' <> [].
Proof. intros e t t' [x E] H. rewrite H in E. cbn in E. symmetry in E. apply app_eq_nil in E. destruct E as [E _]. destruct (t_errs t); discriminate. Qed.

Lemma include_nodes_spec : forall start comps rec,
  (forall n req c cc t t', dget c comps = Some cc -> NoDup (dkeys req) -> rec n req cc t = Done t' ->
     grows t t' /\ (t_errs t' = [] -> exists N L G, inst comps n c req N L G /\ adds start t t' N L G)) ->
  forall n ns t t', (forall x nd, In (x, nd) ns -> NoDup (dkeys nd)) -> include_nodes comps rec n ns t = Done t' ->
  grows t t' /\ (t_errs t' = [] -> exists N L G, inst_nodes comps n ns N L G /\ adds start t t' N L G).
Proof.
  intros start comps rec R n. induction ns as [|[x nd] ns IH]; intros t t' W H; cbn [include_nodes] in H.
  - injection H as <-. split; [apply grows_refl|]. intros _. exists [], [], []. split; [constructor|apply adds_refl].
  - cbv zeta in H. set (t0 := if valid_id (sub_name n x) then t else add_err (CBadId (sub_name n x)) t) in *.
    assert (G0 : grows t t0) by (subst t0; destruct (valid_id _); [apply grows_refl|apply grows_err]).
    assert (W' : forall x nd, In (x, nd) ns -> NoDup (dkeys nd)) by (intros y z I; apply (W y); right; auto).
    assert (T0 : t_errs t0 = [] -> t0 = t /\ ident (under n x)).
    { intros E. destruct (valid_id (sub_name n x)) eqn:V; subst t0; [split; [auto|apply valid_id_ident; auto]|].
      exfalso. cbn in E. apply app_eq_nil in E. destruct E. discriminate. }
    destruct (dmem (sub_name n x) (t_nodes t0)) eqn:D.
    { destruct (IH _ _ W' H) as [G1 _]. split; [eapply grows_trans; [exact G0|eapply grows_trans; [apply grows_err|exact G1]]|].
      intros E. exfalso. eapply grows_add; eauto. }
    destruct (dget "include" nd) as [v|] eqn:I.
    + destruct (validate_include comps v) as [cc|] eqn:V.
      * destruct v as [| | |c| |]; try discriminate. cbn in V.
        destruct (rec (sub_name n x) nd cc t0) as [t1| |] eqn:E; try discriminate.
        destruct (R _ _ _ _ _ _ V (W x nd (or_introl eq_refl)) E) as [G1 S1].
        destruct (IH _ _ W' H) as [G2 S2]. split; [eapply grows_trans; [exact G0|eapply grows_trans; eauto]|].
        intros Z. destruct (S2 Z) as [N2 [L2 [Gr2 [I2 A2]]]].
        destruct (S1 (grows_nil _ _ G2 Z)) as [N1 [L1 [Gr1 [I1 A1]]]].
        destruct (T0 (grows_nil _ _ G1 (grows_nil _ _ G2 Z))) as [-> J].
        exists (N1 ++ N2), (L1 ++ L2), (Gr1 ++ Gr2). split; [apply in_include with (c := c); auto|eapply adds_trans; eauto].
      * destruct (IH _ _ W' H) as [G1 _]. split; [eapply grows_trans; [exact G0|eapply grows_trans; [apply grows_err|exact G1]]|].
        intros E. exfalso. eapply grows_add; eauto.
    + destruct (Nat.ltb MAX_NODE_ID _); [discriminate|].
      destruct (IH _ _ W' H) as [G1 S1]. assert (G2 : grows t t').
      { eapply grows_trans; [exact G0|]. destruct G1 as [e G1]. exists e. exact G1. }
      split; [exact G2|]. intros Z. destruct (S1 Z) as [N2 [L2 [Gr2 [I2 A2]]]].
      assert (Z0 : t_errs t0 = []) by exact (grows_nil _ _ G1 Z). destruct (T0 Z0) as [E J].
      exists ((under n x, nd) :: N2), L2, Gr2. split; [constructor; auto|].
      change ((under n x, nd) :: N2) with ([(under n x, nd)] ++ N2).
      change L2 with ([] ++ L2). change Gr2 with ([] ++ Gr2). eapply adds_trans; [|exact A2]. rewrite E in *.
      assert (K : ~ In (sub_name n x) (dkeys (t_nodes t))).
      { intros Q. apply dmem_true in Q. congruence. }
      split; [|split; [|split; [|split]]]; cbn [t_nodes t_links t_groups set_nodes].
      * apply dset_new. auto.
      * exists []. rewrite app_nil_r. split; [auto|constructor].
      * rewrite app_nil_r. auto.
      * apply NoDup_dset.
      * auto.
Qed.

Lemma expand_include_spec : forall start comps, comps_wf comps ->
  forall fuel n req c cc t t', dget c comps = Some cc -> NoDup (dkeys req) ->
  expand_include start comps fuel n req cc t = Done t' ->
  grows t t' /\ (t_errs t' = [] -> exists N L G, inst comps n c req N L G /\ adds start t t' N L G).
Proof.
  intros start comps W. induction fuel as [|f IH]; intros n req c cc t t' E Wr H; cbn [expand_include] in H; [discriminate|].
  destruct (include_nodes comps (expand_include start comps f) n (c_nodes cc) t) as [t1| |] eqn:I; try discriminate.
  injection H as <-. pose proof (W _ _ E) as Wc.
  destruct (include_nodes_spec start comps _ IH _ _ _ _ (proj2 Wc) I) as [G1 S1].
  destruct (include_links_spec start n (c_links cc) t1) as [own [M [EL [FL XL]]]]. rewrite EL.
  destruct (create_group_spec n req cc (set_links (t_links t1 ++ M) t1) Wc Wr) as [C1 [C2 [C3 C4]]].
  cbn [t_groups t_links t_nodes t_errs set_links] in *. split.
  - destruct G1 as [e G1]. eexists. rewrite C1, G1, <- app_assoc. reflexivity.
  - intros Z. rewrite C1 in Z. apply app_eq_nil in Z. destruct Z as [Z1 Z2].
    destruct (dmem ("inc_" ++ n) (t_groups t1)) eqn:D; [discriminate|].
    destruct (C4 eq_refl) as [g [Hg Eg]]. destruct (S1 Z1) as [N [L [G [HI HA]]]].
    exists N, (L ++ own), (G ++ [(("inc_" ++ n)%string, g)]). split; [econstructor; eauto|].
    replace N with (N ++ []) by apply app_nil_r. eapply adds_trans; [exact HA|].
    split; [rewrite C2, app_nil_r; auto|]. split; [exists M; rewrite C3; auto|]. split; [exact Eg|].
    split; [rewrite C2; auto|]. intros ND. rewrite Eg. unfold dkeys. rewrite map_app. apply NoDup_app_intro; auto.
    + repeat constructor. intros [].
    + intros x I1 [<-|[]]. apply dmem_true in I1. cbn [fst] in I1. congruence.
Qed.

(* ---------- the loop over the nodes of the topology ---------- *)

Lemma dget_middle : forall (A B : dict node) n nd, NoDup (dkeys (A ++ (n, nd) :: B)) -> dget n (A ++ (n, nd) :: B) = Some nd.
Proof. intros A B n nd N. apply dget_NoDup; auto. apply in_or_app. right. left. auto. Qed.

Lemma dpop_notin : forall (A : dict node) n, ~ In n (dkeys A) -> dpop n A = A.
Proof.
  induction A as [|[k v] A IH]; intros n H; cbn; auto. destruct (String.eqb_spec n k) as [->|D].
  - exfalso. apply H. left. auto.
  - f_equal. apply IH. intros I. apply H. right. auto.
Qed.

Lemma dpop_middle : forall (A B : dict node) n nd, NoDup (dkeys (A ++ (n, nd) :: B)) -> dpop n (A ++ (n, nd) :: B) = A ++ B.
Proof.
  intros A B n nd N. unfold dkeys in N. rewrite map_app in N. cbn in N. pose proof (NoDup_remove_2 _ _ _ N) as Q.
  induction A as [|[k v] A IH]; cbn [app dpop].
  - rewrite String.eqb_refl. apply dpop_notin. intros I. apply Q. exact I.
  - destruct (String.eqb_spec n k) as [->|D]; [exfalso; apply Q; left; auto|]. f_equal. apply IH.
    + inversion N; auto.
    + intros I. apply Q. right. auto.
Qed.

Lemma expand_loop_spec : forall start comps fuel, comps_wf comps -> forall rest A B t t',
  t_nodes t = A ++ rest ++ B -> NoDup (dkeys (t_nodes t)) -> (forall n nd, In (n, nd) rest -> NoDup (dkeys nd)) ->
  expand_loop start comps fuel (map fst rest) t = Done t' ->
  grows t t' /\ (t_errs t' = [] -> exists N L G M, insts comps rest N L G /\
    t_nodes t' = A ++ filter (fun kv => negb (is_request kv)) rest ++ B ++ N /\
    t_links t' = t_links t ++ M /\ indexed (next_index start (t_links t)) L M /\
    t_groups t' = t_groups t ++ G /\ NoDup (dkeys (t_nodes t')) /\
    (NoDup (dkeys (t_groups t)) -> NoDup (dkeys (t_groups t')))).
Proof.
  intros start comps fuel W. induction rest as [|[n nd] rest IH]; intros A B t t' E ND Wn H; cbn [map expand_loop fst] in H.
  - injection H as <-. split; [apply grows_refl|]. intros _. exists [], [], [], []. rewrite !app_nil_r. split; [constructor|].
    split; [exact E|]. repeat split; auto. constructor.
  - cbn [app] in E. assert (Wn' : forall n nd, In (n, nd) rest -> NoDup (dkeys nd)) by (intros a b I; apply (Wn a); right; auto).
    rewrite E in H, ND. rewrite dget_middle in H by auto.
    destruct (dget "include" nd) as [v|] eqn:I.
    + rewrite dpop_middle in H by auto. destruct (validate_include comps v) as [cc|] eqn:V.
      * destruct v as [| | |c| |]; try discriminate. cbn in V.
        destruct (expand_include start comps fuel n nd cc (set_nodes (A ++ rest ++ B) t)) as [t1| |] eqn:X; try discriminate.
        destruct (expand_include_spec start comps W _ _ _ _ _ _ _ V (Wn n nd (or_introl eq_refl)) X) as [G1 S1].
        assert (G1' : grows t t1) by (destruct G1 as [e G1]; exists e; exact G1).
        destruct (list_eq_dec (fun a b : cerr => ltac:(repeat decide equality)) (t_errs t1) []) as [Z1|Z1].
        2: { assert (X2 : grows t1 t' ).
             { assert (Q : forall names u u', expand_loop start comps fuel names u = Done u' -> grows u u').
               { clear - W. induction names as [|m names IHn]; intros u u' H; cbn [expand_loop] in H; [injection H as <-; apply grows_refl|].
                 destruct (dget m (t_nodes u)) as [d|]; [|auto]. destruct (dget "include" d) as [v|]; [|auto].
                 destruct (validate_include comps v) as [c|].
                 - destruct (expand_include start comps fuel m d c (set_nodes (dpop m (t_nodes u)) u)) as [u1| |] eqn:X; try discriminate.
                   eapply grows_trans; [|eapply IHn; eauto].
                   assert (Q : forall f n req c t t', expand_include start comps f n req c t = Done t' -> grows t t').
                   { clear. induction f as [|f IHf]; intros n req c t t' H; cbn [expand_include] in H; [discriminate|].
                     destruct (include_nodes comps (expand_include start comps f) n (c_nodes c) t) as [t1| |] eqn:J; try discriminate.
                     injection H as <-.
                     assert (K : grows t t1).
                     { revert t t1 J. generalize (c_nodes c). induction d as [|[x nd] d IHd]; intros t t1 J; cbn [include_nodes] in J.
                       - injection J as <-. apply grows_refl.
                       - cbv zeta in J. set (t0 := if valid_id (sub_name n x) then t else add_err (CBadId (sub_name n x)) t) in *.
                         assert (G0 : grows t t0) by (subst t0; destruct (valid_id _); [apply grows_refl|apply grows_err]).
                         destruct (dmem (sub_name n x) (t_nodes t0)).
                         { eapply grows_trans; [exact G0|]. eapply grows_trans; [apply grows_err|]. eapply IHd; eauto. }
                         destruct (dget "include" nd) as [v|].
                         + destruct (validate_include comps v) as [cc|].
                           * destruct (expand_include start comps f (sub_name n x) nd cc t0) as [t2| |] eqn:Y; try discriminate.
                             eapply grows_trans; [exact G0|]. eapply grows_trans; [eapply IHf; eauto|]. eapply IHd; eauto.
                           * eapply grows_trans; [exact G0|]. eapply grows_trans; [apply grows_err|]. eapply IHd; eauto.
                         + destruct (Nat.ltb MAX_NODE_ID _); [discriminate|]. apply IHd in J.
                           eapply grows_trans; [exact G0|]. destruct J as [e J]. exists e. exact J. }
                     eapply grows_trans; [exact K|]. destruct (include_links_spec start n (c_links c) t1) as [own [M [EL _]]].
                     rewrite EL. unfold create_included_group. destruct (dmem _ _); [eexists; reflexivity|].
                     exists []. rewrite app_nil_r. reflexivity. }
                   apply Q in X. destruct X as [e X]. exists e. exact X.
                 - apply IHn in H. eapply grows_trans; [|exact H]. eexists. reflexivity. }
               eapply Q; eauto. }
             split; [eapply grows_trans; eauto|]. intros Z. exfalso. apply Z1. eapply grows_nil; eauto. }
        destruct (S1 Z1) as [N1 [L1 [Gr1 [I1 [A1 [[M1 [A2 A3]] [A4 [A5 A6]]]]]]]].
        cbn [t_nodes t_links t_groups set_nodes] in *.
        assert (ND' : NoDup (dkeys (A ++ rest ++ B))).
        { unfold dkeys in *. rewrite map_app in *. cbn in ND. eapply NoDup_remove_1; eauto. }
        destruct (IH A (B ++ N1) t1 t') as [G2 S2]; auto.
        { rewrite A1, <- !app_assoc. auto. }
        split; [eapply grows_trans; eauto|]. intros Z. destruct (S2 Z) as [N2 [L2 [Gr2 [M2 [J1 [J2 [J3 [J4 [J5 [J6 J7]]]]]]]]]].
        exists (N1 ++ N2), (L1 ++ L2), (Gr1 ++ Gr2), (M1 ++ M2). split; [eapply is_include; eauto|].
        split. { rewrite J2. cbn [filter]. unfold is_request at 2. cbn [snd]. unfold dmem at 1. rewrite I. cbn [negb]. rewrite <- !app_assoc. auto. }
        split; [rewrite J3, A2, app_assoc; auto|]. split; [|split; [rewrite J5, A4, app_assoc; auto|split; auto]].
        apply indexed_app; auto. rewrite A2, (next_index_app _ _ _ _ A3) in J4. auto.
      * assert (ND' : NoDup (dkeys (A ++ rest ++ B))).
        { unfold dkeys in *. rewrite map_app in *. cbn in ND. eapply NoDup_remove_1; eauto. }
        destruct (IH A B (add_err (CNotFound n) (set_nodes (A ++ rest ++ B) t)) t') as [G2 S2]; auto.
        split.
        -- eapply grows_trans; [|exact G2]. eexists. reflexivity.
        -- intros Z. exfalso. eapply grows_add; eauto.
    + destruct (IH (A ++ [(n, nd)]) B t t') as [G2 S2]; auto.
      { rewrite E, <- app_assoc. auto. }
      { rewrite E. auto. }
      split; [exact G2|]. intros Z. destruct (S2 Z) as [N2 [L2 [Gr2 [M2 [J1 [J2 J]]]]]].
      exists N2, L2, Gr2, M2. split; [constructor; auto|]. split; [|exact J].
      rewrite J2. cbn [filter]. unfold is_request at 2. cbn [snd]. unfold dmem at 1. rewrite I. cbn [negb].
      rewrite <- !app_assoc. auto.
Qed.

(* ---------- C119 ---------- *)

(* Expansion without an error: the nodes of the topology are the nodes that are not include requests,
   followed by the nodes of all instances; the links of the instances are appended to the list of links
   with consecutive indices, and their groups to the groups; nothing has the same name. *)
Theorem components_exact : forall start comps fuel t t', comps_wf comps ->
  NoDup (dkeys (t_nodes t)) -> NoDup (dkeys (t_groups t)) -> (forall n nd, In (n, nd) (t_nodes t) -> NoDup (dkeys nd)) ->
  expand_topology start comps fuel t = Done t' -> t_errs t' = [] ->
  exists N L G M, insts comps (t_nodes t) N L G /\
    t_nodes t' = filter (fun kv => negb (is_request kv)) (t_nodes t) ++ N /\
    t_links t' = t_links t ++ M /\ indexed (next_index start (t_links t)) L M /\
    t_groups t' = t_groups t ++ G /\
    NoDup (dkeys (t_nodes t')) /\ NoDup (dkeys (t_groups t')).
Proof.
  intros start comps fuel t t' W N1 N2 Wn H Z.
  assert (E : t_nodes t = [] ++ t_nodes t ++ []) by (cbn; rewrite app_nil_r; auto).
  destruct (expand_loop_spec start comps fuel W (t_nodes t) [] [] t t' E N1 Wn H) as [_ S].
  destruct (S Z) as [N [L [G [M [J1 [J2 [J3 [J4 [J5 [J6 J7]]]]]]]]]]. exists N, L, G, M.
  cbn [app] in J2. repeat split; auto.
Qed.
