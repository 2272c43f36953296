(* Properties C179-C182: members created automatically, groups of nodes, groups of autonomous systems, data exported from groups. *)
From Coq Require Import String Ascii ZArith Lia Bool List.
From Verif Require Import Base Box_Model Box_Props Text_Model Agrp_Model.
From Verif Require Vrf_Model Vrf_Props Clone_Model Clone_Props Version_Props Types_Props.
Import ListNotations.
Local Open Scope string_scope.
Local Open Scope list_scope.

(* ------------------------------------------------------------------ *)
(* Members created automatically                                        *)

Definition visible (g : string) : Prop := forall r, g <> String "_" r.

Lemma hidden_iff : forall g, hidden g = false <-> visible g.
Proof.
  intros [|c r]; unfold visible; cbn [hidden]; [split; [intros _ s H; discriminate H|reflexivity]|]. destruct (Ascii.eqb_spec c "_") as [Q|Q].
  - subst c. split; [discriminate|]. intros H. exfalso. exact (H r eq_refl).
  - split; [|reflexivity]. intros _ s H. injection H as H1 H2. contradiction.
Qed.

(* an object created for a member *)
Definition fresh (ns n : string) (v : val) : Prop :=
  (ns = "nodes" /\ v = VDict [("name", VStr n); ("interfaces", VList [])]) \/ (ns <> "nodes" /\ v = VDict []).

(* a group needs an object *)
Definition wants (all : bool) (g : agroup) (ns n : string) : Prop :=
  (ag_auto g = true \/ all = true) /\ (ag_type g = None /\ ns = "nodes" \/ exists t, ag_type g = Some t /\ ns = (t ++ "s")%string) /\ In n (ag_members g).

Definition grows (W : string -> string -> Prop) (o o' : dict (dict val)) : Prop :=
  forall ns n v, dget n (objects ns o') = Some v <-> dget n (objects ns o) = Some v \/ (dget n (objects ns o) = None /\ W ns n /\ fresh ns n v).

Lemma fresh_fun : forall ns n v w, fresh ns n v -> fresh ns n w -> v = w.
Proof. intros ns n v w [[A B]|[A B]] [[C D]|[C D]]; subst; try reflexivity; contradiction. Qed.

Lemma grows_refl : forall o, grows (fun _ _ => False) o o.
Proof. intros o ns n v. split; [intros H; left; exact H|intros [H|[_ [[] _]]]; exact H]. Qed.

Lemma grows_ext : forall (W V : string -> string -> Prop) o o', (forall ns n, W ns n <-> V ns n) -> grows W o o' -> grows V o o'.
Proof. intros W V o o' E G ns n v. rewrite (G ns n v), (E ns n). reflexivity. Qed.

Lemma grows_trans : forall (W V : string -> string -> Prop) a b c, grows W a b -> grows V b c -> grows (fun ns n => W ns n \/ V ns n) a c.
Proof.
  intros W V a b c G H ns n v. rewrite (H ns n v). split.
  - intros [K|[K1 [K2 K3]]].
    + apply G in K. destruct K as [K|[K1 [K2 K3]]]; [left; exact K|right; split; [exact K1|]; split; [left; exact K2|exact K3]].
    + right. split; [|split; [right; exact K2|exact K3]]. destruct (dget n (objects ns a)) as [w|] eqn:A; [|reflexivity]. assert (B : dget n (objects ns b) = Some w) by (apply G; left; exact A). rewrite K1 in B. discriminate B.
  - intros [K|[K1 [[K2|K2] K3]]].
    + left. apply G. left. exact K.
    + left. apply G. right. split; [exact K1|]. split; assumption.
    + destruct (dget n (objects ns b)) as [w|] eqn:B; [|right; split; [reflexivity|]; split; assumption]. left. apply G in B. destruct B as [B|[_ [_ B]]]; [rewrite K1 in B; discriminate B|]. rewrite (fresh_fun _ _ _ _ K3 B). reflexivity.
Qed.

Lemma grows_fold : forall {A} (f : dict (dict val) -> A -> dict (dict val)) (W : A -> string -> string -> Prop) l o,
  (forall x o, In x l -> grows (W x) o (f o x)) -> grows (fun ns n => exists x, In x l /\ W x ns n) o (fold_left f l o).
Proof.
  intros A f W l. induction l as [|x l IH]; intros o H; cbn [fold_left].
  - apply (grows_ext (fun _ _ => False)); [|apply grows_refl]. intros ns n. split; [intros []|intros [x [[] _]]].
  - apply (grows_ext (fun ns n => W x ns n \/ exists y, In y l /\ W y ns n)).
    + intros ns n. split.
      * intros [K|[y [I K]]]; [exists x; split; [left; reflexivity|exact K]|exists y; split; [right; exact I|exact K]].
      * intros [y [[I|I] K]]; [subst y; left; exact K|right; exists y; split; assumption].
    + apply (grows_trans _ _ o (f o x)); [apply H; left; reflexivity|]. apply IH. intros y o1 I. apply H. right. exact I.
Qed.

Lemma create_grows : forall tn dn ns m o, grows (fun s n => s = ns /\ n = m /\ ~ In m tn /\ ~ In m dn) o (create_member tn dn ns o m).
Proof.
  intros tn dn ns m o. unfold create_member. destruct (memS m tn) eqn:T; cbn [orb].
  { apply (grows_ext (fun _ _ => False)); [|apply grows_refl]. intros s n. apply memS_true in T. split; [intros []|intros [_ [_ [K _]]]; contradiction]. }
  destruct (memS m dn) eqn:D.
  { apply (grows_ext (fun _ _ => False)); [|apply grows_refl]. intros s n. apply memS_true in D. split; [intros []|intros [_ [_ [_ K]]]; contradiction]. }
  apply memS_false in T. apply memS_false in D. destruct (dmem m (objects ns o)) eqn:M.
  { intros s n v. split; [intros K; left; exact K|]. intros [K|[K [[E1 [E2 _]] _]]]; [exact K|]. subst s n. unfold dmem in M. rewrite K in M. discriminate M. }
  assert (MN : dget m (objects ns o) = None) by (unfold dmem in M; destruct (dget m (objects ns o)); [discriminate M|reflexivity]). clear M.
  set (v0 := if String.eqb ns "nodes" then VDict [("name", VStr m); ("interfaces", VList [])] else VDict []).
  assert (F : fresh ns m v0).
  { unfold fresh, v0. destruct (String.eqb_spec ns "nodes") as [Q|Q]; [left; split; [exact Q|reflexivity]|right; split; [exact Q|reflexivity]]. }
  clearbody v0. intros s n v. destruct (string_dec s ns) as [Q|Q].
  - subst s. assert (OB : objects ns (dset ns (dset m v0 (objects ns o)) o) = dset m v0 (objects ns o)) by (unfold objects at 1; rewrite dget_dset_same; reflexivity). rewrite OB.
    destruct (string_dec n m) as [R|R].
    + subst n. rewrite dget_dset_same, MN. split.
      * intros K. injection K as K. subst v. right. split; [reflexivity|]. split; [repeat split; assumption|exact F].
      * intros [K|[_ [_ K]]]; [discriminate K|]. rewrite (fresh_fun _ _ _ _ K F). reflexivity.
    + rewrite dget_dset_other by exact R. split; [intros K; left; exact K|]. intros [K|[_ [[_ [K _]] _]]]; [exact K|contradiction].
  - assert (OB : objects s (dset ns (dset m v0 (objects ns o)) o) = objects s o) by (unfold objects at 1; rewrite dget_dset_other by exact Q; reflexivity). rewrite OB.
    split; [intros K; left; exact K|]. intros [K|[_ [[K _] _]]]; [exact K|contradiction].
Qed.

Lemma auto_grows : forall tn dn all groups o,
  grows (fun ns n => exists x, In x groups /\ visible (fst x) /\ wants all (snd x) ns n /\ ~ In n tn /\ ~ In n dn) o (auto_create tn dn all groups o).
Proof.
  intros tn dn all groups o. unfold auto_create.
  apply (grows_fold _ (fun x ns n => visible (fst x) /\ wants all (snd x) ns n /\ ~ In n tn /\ ~ In n dn)). intros [g gd] o1 _. cbn [fst snd]. unfold create_members. cbn [fst snd].
  destruct (hidden g) eqn:HG.
  { apply (grows_ext (fun _ _ => False)); [|apply grows_refl]. intros ns n. split; [intros []|]. intros [K _]. apply hidden_iff in K. rewrite HG in K. discriminate K. }
  destruct (negb (ag_auto gd) && negb all) eqn:AU.
  { apply (grows_ext (fun _ _ => False)); [|apply grows_refl]. intros ns n. split; [intros []|]. intros [_ [[K _] _]]. apply andb_true_iff in AU. destruct AU as [A B]. apply negb_true_iff in A. apply negb_true_iff in B. rewrite A, B in K. destruct K as [K|K]; discriminate K. }
  set (ns0 := (match ag_type gd with Some t => t | None => "node" end ++ "s")%string).
  apply (grows_ext (fun ns n => exists m, In m (ag_members gd) /\ (ns = ns0 /\ n = m /\ ~ In m tn /\ ~ In m dn))).
  - intros ns n. apply hidden_iff in HG. assert (NS : ns = ns0 <-> (ag_type gd = None /\ ns = "nodes" \/ exists t, ag_type gd = Some t /\ ns = (t ++ "s")%string)).
    { unfold ns0. destruct (ag_type gd) as [t|].
      - split; [intros K; right; exists t; split; [reflexivity|exact K]|]. intros [[K _]|[t' [K1 K2]]]; [discriminate K|]. injection K1 as K1. subst t'. exact K2.
      - split; [intros K; left; split; [reflexivity|exact K]|]. intros [[_ K]|[t' [K _]]]; [exact K|discriminate K]. }
    assert (AA : ag_auto gd = true \/ all = true) by (destruct (ag_auto gd); [left; reflexivity|]; destruct all; [right; reflexivity|discriminate AU]).
    unfold wants. rewrite <- NS. split.
    + intros [m [I [K1 [K2 [K3 K4]]]]]. subst m. split; [exact HG|]. split; [split; [exact AA|]; split; assumption|]. split; assumption.
    + intros [_ [[_ [K1 K2]] [K3 K4]]]. exists n. split; [exact K2|]. split; [exact K1|]. split; [reflexivity|]. split; assumption.
  - apply (grows_fold _ (fun m ns n => ns = ns0 /\ n = m /\ ~ In m tn /\ ~ In m dn)). intros m o2 _. apply create_grows.
Qed.

(* Objects after the creation of members: the previous ones, unchanged, and exactly the missing members of groups that need them. *)
Theorem auto_create_exact : forall all groups defaults o ns n v,
  dget n (objects ns (precheck all groups defaults o)) = Some v <->
  dget n (objects ns o) = Some v \/
  (dget n (objects ns o) = None /\ fresh ns n v /\ ~ In n (dkeys groups) /\ ~ In n (dkeys defaults) /\
   ((exists g gd, In (g, gd) groups /\ visible g /\ wants all gd ns n) \/ (exists g gd, In (g, gd) defaults /\ visible g /\ wants false gd ns n))).
Proof.
  intros all groups defaults o ns n v. unfold precheck.
  pose proof (grows_trans _ _ _ _ _ (auto_grows (dkeys groups) (dkeys defaults) all groups o) (auto_grows (dkeys groups) (dkeys defaults) false defaults _)) as G.
  rewrite (G ns n v). apply or_iff_compat_l. split.
  - intros [K1 [[[[g gd] [I [V [W [N1 N2]]]]]|[[g gd] [I [V [W [N1 N2]]]]]] K3]]; cbn [fst snd] in *; (split; [exact K1|]); (split; [exact K3|]); (split; [exact N1|]); (split; [exact N2|]); [left|right]; exists g, gd; (split; [exact I|]); split; assumption.
  - intros [K1 [K3 [N1 [N2 K]]]]. split; [exact K1|]. split; [|exact K3]. destruct K as [[g [gd [I [V W]]]]|[g [gd [I [V W]]]]]; [left|right]; exists (g, gd); cbn [fst snd]; repeat (split; [assumption|]); assumption.
Qed.

(* ------------------------------------------------------------------ *)
(* Groups listed in nodes                                               *)

Definition of_nodes (g : option ngroup) : Prop := match g with Some x => ng_type x = None \/ ng_type x = Some "node" | None => True end.
Definition members_of (g : option ngroup) : list string := match g with Some x => ng_members x | None => [] end.
Definition type_of (g : option ngroup) : option string := match g with Some x => ng_type x | None => None end.

Lemma node_group_iff : forall g, node_group g = true <-> ng_type g = None \/ ng_type g = Some "node".
Proof.
  intros g. unfold node_group. destruct (ng_type g) as [t|].
  - rewrite String.eqb_eq. split; [intros K; right; rewrite K; reflexivity|intros [K|K]; [discriminate K|injection K as K; exact K]].
  - split; [intros _; left; reflexivity|reflexivity].
Qed.

(* one node: the groups in its list *)
Lemma node_step : forall x L groups errs, let r := fold_left (add_to_group x) L (groups, errs) in
  (forall g, (~ In g L \/ ~ of_nodes (dget g groups) -> dget g (fst r) = dget g groups) /\
             (In g L -> of_nodes (dget g groups) -> dget g (fst r) = Some (mk_ng (type_of (dget g groups))
                (if memS x (members_of (dget g groups)) then members_of (dget g groups) else members_of (dget g groups) ++ [x])))) /\
  (forall e, In e (snd r) <-> In e errs \/ exists g, In g L /\ e = (x, g) /\ ~ of_nodes (dget g groups)).
Proof.
  intros x L. induction L as [|y L IH]; intros groups errs; cbn [fold_left].
  - cbv zeta. split; [intros g; split; [reflexivity|intros []]|]. intros e. split; [intros K; left; exact K|intros [K|[g [[] _]]]; exact K].
  - set (gy := match dget y groups with Some g => g | None => mk_ng None [] end).
    assert (ST : add_to_group x (groups, errs) y = if node_group gy then (dset y (mk_ng (ng_type gy) (if memS x (ng_members gy) then ng_members gy else ng_members gy ++ [x])) groups, errs) else (groups, errs ++ [(x, y)])) by reflexivity.
    rewrite ST. clear ST.
    assert (TY : of_nodes (dget y groups) <-> node_group gy = true).
    { rewrite node_group_iff. unfold gy, of_nodes. destruct (dget y groups) as [g|]; [reflexivity|]. split; [intros _; left; reflexivity|intros _; exact I]. }
    assert (MY : members_of (dget y groups) = ng_members gy /\ type_of (dget y groups) = ng_type gy) by (unfold gy; destruct (dget y groups); split; reflexivity). destruct MY as [MY TT].
    destruct (node_group gy) eqn:NG.
    + set (new := mk_ng (ng_type gy) (if memS x (ng_members gy) then ng_members gy else ng_members gy ++ [x])). specialize (IH (dset y new groups) errs). cbv zeta in IH |- *. destruct IH as [A B].
      assert (ON : of_nodes (Some new)) by (unfold new, of_nodes; cbn [ng_type]; apply node_group_iff; exact NG).
      split.
      * intros g. destruct (A g) as [A1 A2]. destruct (string_dec g y) as [Q|Q].
        -- subst g. rewrite dget_dset_same in A1, A2. split.
           ++ intros [K|K]; [exfalso; apply K; left; reflexivity|]. exfalso. apply K. apply TY. reflexivity.
           ++ intros _ _. rewrite MY, TT. destruct (in_dec string_dec y L) as [IL|IL].
              ** rewrite (A2 IL ON). unfold new. cbn [type_of members_of ng_type ng_members]. destruct (memS x (ng_members gy)) eqn:ME; [rewrite ME; reflexivity|].
                 assert (MX : memS x (ng_members gy ++ [x]) = true) by (apply memS_true; apply in_or_app; right; left; reflexivity). rewrite MX. reflexivity.
              ** rewrite (A1 (or_introl IL)). reflexivity.
        -- rewrite dget_dset_other in A1, A2 by exact Q. split.
           ++ intros [K|K]; apply A1; [left; intros K2; apply K; right; exact K2|right; exact K].
           ++ intros [K|K]; [exfalso; apply Q; symmetry; exact K|]. exact (A2 K).
      * intros e. rewrite B. apply or_iff_compat_l. split.
        -- intros [g [I1 [E N]]]. destruct (string_dec g y) as [Q|Q]; [subst g; rewrite dget_dset_same in N; contradiction|]. rewrite dget_dset_other in N by exact Q. exists g. split; [right; exact I1|]. split; assumption.
        -- intros [g [I1 [E N]]]. destruct (string_dec g y) as [Q|Q]; [subst g; exfalso; apply N; apply TY; reflexivity|]. destruct I1 as [I1|I1]; [exfalso; apply Q; symmetry; exact I1|].
           exists g. split; [exact I1|]. split; [exact E|]. rewrite dget_dset_other by exact Q. exact N.
    + specialize (IH groups (errs ++ [(x, y)])). cbv zeta in IH |- *. destruct IH as [A B]. assert (NY : ~ of_nodes (dget y groups)) by (intros K; apply TY in K; discriminate K). split.
      * intros g. destruct (A g) as [A1 A2]. split.
        -- intros [K|K]; apply A1; [left; intros K2; apply K; right; exact K2|right; exact K].
        -- intros [K|K] O; [subst g; contradiction|exact (A2 K O)].
      * intros e. rewrite B, in_app_iff. cbn [In]. split.
        -- intros [[K|[K|[]]]|[g [I1 K]]]; [left; exact K|right; exists y; split; [left; reflexivity|]; split; [symmetry; exact K|exact NY]|right; exists g; split; [right; exact I1|exact K]].
        -- intros [K|[g [[I1|I1] [K1 K2]]]]; [left; left; exact K|subst g; left; right; left; symmetry; exact K1|right; exists g; split; [exact I1|split; assumption]].
Qed.

(* Groups after nodes were added: the nodes that list a group and are not in it are added, in order; a missing group is created, and
   groups of other objects are reported and do not change. *)
Theorem node_groups_exact : forall nodes groups groups' errs, NoDup (dkeys nodes) -> add_node_groups nodes groups = (groups', errs) ->
  (forall g, of_nodes (dget g groups) ->
     (exists x l, In (x, l) nodes /\ In g l) ->
     exists gd keep, dget g groups' = Some gd /\ ng_type gd = type_of (dget g groups) /\
       ng_members gd = members_of (dget g groups) ++ map fst (filter keep nodes) /\
       forall x l, In (x, l) nodes -> (keep (x, l) = true <-> In g l /\ ~ In x (members_of (dget g groups)))) /\
  (forall g, (~ of_nodes (dget g groups) \/ ~ exists x l, In (x, l) nodes /\ In g l) -> dget g groups' = dget g groups) /\
  (forall x g, In (x, g) errs <-> exists l, In (x, l) nodes /\ In g l /\ ~ of_nodes (dget g groups)).
Proof.
  intros nodes groups groups' errs ND H. unfold add_node_groups in H.
  assert (G : forall nodes groups errs0, NoDup (dkeys nodes) -> let r := fold_left (fun acc x => fold_left (add_to_group (fst x)) (snd x) acc) nodes (groups, errs0) in
    (forall g, of_nodes (dget g groups) -> (exists x l, In (x, l) nodes /\ In g l) -> exists gd keep, dget g (fst r) = Some gd /\ ng_type gd = type_of (dget g groups) /\
       ng_members gd = members_of (dget g groups) ++ map fst (filter keep nodes) /\
       forall x l, In (x, l) nodes -> (keep (x, l) = true <-> In g l /\ ~ In x (members_of (dget g groups)))) /\
    (forall g, (~ of_nodes (dget g groups) \/ ~ exists x l, In (x, l) nodes /\ In g l) -> dget g (fst r) = dget g groups) /\
    (forall e, In e (snd r) <-> In e errs0 \/ exists x l g, In (x, l) nodes /\ In g l /\ e = (x, g) /\ ~ of_nodes (dget g groups))).
  { clear. induction nodes as [|[y L] nodes IH]; intros groups errs0 ND; cbn [fold_left fst snd].
    - cbv zeta. cbn [fst snd]. split; [intros g _ [x [l [[] _]]]|]. split; [reflexivity|]. intros e. split; [intros K; left; exact K|intros [K|[x [l [g [[] _]]]]]; exact K].
    - cbn [dkeys map fst] in ND. apply NoDup_cons_iff in ND. destruct ND as [NY ND].
      pose proof (node_step y L groups errs0) as NS. cbv zeta in NS. destruct (fold_left (add_to_group y) L (groups, errs0)) as [g1 e1]. cbn [fst snd] in NS. destruct NS as [N1 N2].
      specialize (IH g1 e1 ND). cbv zeta in IH |- *. destruct IH as [A [B C]].
      assert (OT : forall g, of_nodes (dget g g1) <-> of_nodes (dget g groups)).
      { intros g. destruct (N1 g) as [P Q]. destruct (in_dec string_dec g L) as [IL|IL]; [|rewrite (P (or_introl IL)); reflexivity].
        assert (DEC : of_nodes (dget g groups) \/ ~ of_nodes (dget g groups)).
        { unfold of_nodes. destruct (dget g groups) as [gd|]; [|left; exact I]. destruct (node_group gd) eqn:NG; [left; apply node_group_iff; exact NG|right; intros K; apply node_group_iff in K; rewrite NG in K; discriminate K]. }
        destruct DEC as [D|D]; [|rewrite (P (or_intror D)); reflexivity]. rewrite (Q IL D). split; [intros _; exact D|]. intros _. unfold of_nodes in D |- *. cbn [ng_type]. destruct (dget g groups) as [gd|]; [exact D|left; reflexivity]. }
      split; [|split].
      + intros g O EX. destruct (N1 g) as [P Q].
        assert (DX : (exists x l, In (x, l) nodes /\ In g l) \/ ~ exists x l, In (x, l) nodes /\ In g l).
        { clear. induction nodes as [|[x l] nodes IH]; [right; intros [x [l [[] _]]]|]. destruct (in_dec string_dec g l) as [K|K]; [left; exists x, l; split; [left; reflexivity|exact K]|].
          destruct IH as [[x' [l' [I1 I2]]]|N]; [left; exists x', l'; split; [right; exact I1|exact I2]|]. right. intros [x' [l' [[I1|I1] I2]]]; [injection I1 as E1 E2; subst; contradiction|]. apply N. exists x', l'. split; assumption. }
        destruct (in_dec string_dec g L) as [IL|IL].
        * specialize (Q IL O). set (old := members_of (dget g groups)) in *. destruct (memS y old) eqn:MY.
          -- apply memS_true in MY. destruct DX as [DX|DX].
             ++ destruct (A g (proj2 (OT g) O) DX) as [gd [keep [D [T [M K]]]]]. rewrite Q in T, M, K. cbn [type_of members_of ng_type ng_members] in T, M, K.
                exists gd, (fun z => if String.eqb (fst z) y then false else keep z). split; [exact D|]. split; [exact T|]. split.
                ** rewrite M. f_equal. cbn [filter fst]. rewrite String.eqb_refl. f_equal. apply filter_ext_in. intros [z lz] IZ. cbn [fst]. destruct (String.eqb_spec z y) as [E|E]; [|reflexivity].
                   exfalso. apply NY. subst z. apply in_map_iff. exists (y, lz). split; [reflexivity|exact IZ].
                ** intros x l [I1|I1]; cbn [fst].
                   --- injection I1 as E1 E2. subst x l. rewrite String.eqb_refl. split; [discriminate|]. intros [_ K2]. contradiction.
                   --- destruct (String.eqb_spec x y) as [E|E]; [|exact (K x l I1)]. exfalso. apply NY. subst x. apply in_map_iff. exists (y, l). split; [reflexivity|exact I1].
             ++ rewrite (B g (or_intror DX)), Q. eexists. exists (fun _ => false). split; [reflexivity|]. split; [reflexivity|]. cbn [ng_members]. split.
                ** assert (FE : filter (fun _ : string * list string => false) ((y, L) :: nodes) = []) by (clear; cbn [filter]; induction nodes; [reflexivity|assumption]). rewrite FE. cbn [map]. rewrite app_nil_r. reflexivity.
                ** intros x l [I1|I1]; [injection I1 as E1 E2; subst x l; split; [discriminate|intros [_ K]; contradiction]|]. split; [discriminate|]. intros [K _]. exfalso. apply DX. exists x, l. split; assumption.
          -- apply memS_false in MY. destruct DX as [DX|DX].
             ++ destruct (A g (proj2 (OT g) O) DX) as [gd [keep [D [T [M K]]]]]. rewrite Q in T, M, K. cbn [type_of members_of ng_type ng_members] in T, M, K.
                exists gd, (fun z => if String.eqb (fst z) y then true else keep z). split; [exact D|]. split; [exact T|]. split.
                ** rewrite M. rewrite <- app_assoc. f_equal. cbn [filter fst]. rewrite String.eqb_refl. cbn [map fst app]. f_equal. f_equal. apply filter_ext_in. intros [z lz] IZ. cbn [fst]. destruct (String.eqb_spec z y) as [E|E]; [|reflexivity].
                   exfalso. apply NY. subst z. apply in_map_iff. exists (y, lz). split; [reflexivity|exact IZ].
                ** intros x l [I1|I1]; cbn [fst].
                   --- injection I1 as E1 E2. subst x l. rewrite String.eqb_refl. split; [intros _; split; assumption|reflexivity].
                   --- destruct (String.eqb_spec x y) as [E|E]; [exfalso; apply NY; subst x; apply in_map_iff; exists (y, l); split; [reflexivity|exact I1]|]. rewrite (K x l I1), in_app_iff. cbn [In]. split.
                       +++ intros [K1 K2]. split; [exact K1|]. intros K3. apply K2. left. exact K3.
                       +++ intros [K1 K2]. split; [exact K1|]. intros [K3|[K3|[]]]; [contradiction|]. apply E. symmetry. exact K3.
             ++ rewrite (B g (or_intror DX)), Q. eexists. exists (fun z => String.eqb (fst z) y). split; [reflexivity|]. split; [reflexivity|]. cbn [ng_members]. split.
                ** f_equal. cbn [filter fst]. rewrite String.eqb_refl. cbn [map fst]. assert (FE : filter (fun z : string * list string => String.eqb (fst z) y) nodes = []); [|rewrite FE; reflexivity].
                   clear - NY. induction nodes as [|[z lz] nodes IHn]; [reflexivity|]. cbn [filter fst]. destruct (String.eqb_spec z y) as [E|E]; [exfalso; apply NY; left; exact E|]. apply IHn. intros K. apply NY. right. exact K.
                ** intros x l [I1|I1]; cbn [fst].
                   --- injection I1 as E1 E2. subst x l. rewrite String.eqb_refl. split; [intros _; split; assumption|reflexivity].
                   --- destruct (String.eqb_spec x y) as [E|E]; [exfalso; apply NY; subst x; apply in_map_iff; exists (y, l); split; [reflexivity|exact I1]|]. split; [discriminate|]. intros [K _]. exfalso. apply DX. exists x, l. split; assumption.
        * destruct DX as [DX|DX].
          2:{ exfalso. destruct EX as [x [l [[I1|I1] I2]]]; [injection I1 as E1 E2; subst; contradiction|]. apply DX. exists x, l. split; assumption. }
          specialize (P (or_introl IL)). destruct (A g (proj2 (OT g) O) DX) as [gd [keep [D [T [M K]]]]]. rewrite P in T, M, K. exists gd, (fun z => if String.eqb (fst z) y then false else keep z). split; [exact D|]. split; [exact T|]. split.
          -- rewrite M. f_equal. cbn [filter fst]. rewrite String.eqb_refl. f_equal. apply filter_ext_in. intros [z lz] IZ. cbn [fst]. destruct (String.eqb_spec z y) as [E|E]; [|reflexivity].
             exfalso. apply NY. subst z. apply in_map_iff. exists (y, lz). split; [reflexivity|exact IZ].
          -- intros x l [I1|I1]; cbn [fst].
             ++ injection I1 as E1 E2. subst x l. rewrite String.eqb_refl. split; [discriminate|]. intros [K2 _]. contradiction.
             ++ destruct (String.eqb_spec x y) as [E|E]; [|exact (K x l I1)]. exfalso. apply NY. subst x. apply in_map_iff. exists (y, l). split; [reflexivity|exact I1].
      + intros g K. destruct (N1 g) as [P _]. rewrite B.
        * apply P. destruct K as [K|K]; [right; exact K|left; intros IL; apply K; exists y, L; split; [left; reflexivity|exact IL]].
        * destruct K as [K|K]; [left; intros K2; apply K; apply OT; exact K2|right; intros [x [l [I1 I2]]]; apply K; exists x, l; split; [right; exact I1|exact I2]].
      + intros e. rewrite C, N2. split.
        * intros [[K|[g [I1 [E N]]]]|[x [l [g [I1 [I2 [E N]]]]]]].
          -- left. exact K.
          -- right. exists y, L, g. split; [left; reflexivity|]. split; [exact I1|]. split; assumption.
          -- right. exists x, l, g. split; [right; exact I1|]. split; [exact I2|]. split; [exact E|]. intros K. apply N. apply OT. exact K.
        * intros [K|[x [l [g [[I1|I1] [I2 [E N]]]]]]].
          -- left. left. exact K.
          -- injection I1 as E1 E2. subst x l. left. right. exists g. split; [exact I2|]. split; assumption.
          -- right. exists x, l, g. split; [exact I1|]. split; [exact I2|]. split; [exact E|]. intros K. apply N. apply OT. exact K. }
  destruct (G nodes groups [] ND) as [A [B C]]. rewrite H in A, B, C. cbn [fst snd] in A, B, C. split; [exact A|]. split; [exact B|]. intros x g. rewrite C. cbn [In]. split.
  - intros [[]|[x' [l [g' [I1 [I2 [E N]]]]]]]. injection E as E1 E2. subst x' g'. exists l. split; [exact I1|]. split; assumption.
  - intros [l [I1 [I2 N]]]. right. exists x, l, g. split; [exact I1|]. split; [exact I2|]. split; [reflexivity|exact N].
Qed.

(* ------------------------------------------------------------------ *)
(* Groups of autonomous systems                                         *)

Section As.
Variable asn : val -> Z.
Variable g_mod : list string.
Variable g_as : val.

(* the AS number of a node that runs BGP: its own one, or the global one *)
Definition runs_bgp (n : bnode) : Prop :=
  (exists l, bn_mod n = Some (Some l) /\ In "bgp" l) \/ (bn_mod n = None /\ In "bgp" g_mod).
Definition in_as (n : bnode) (z : Z) : Prop :=
  runs_bgp n /\ z <> 0%Z /\ ((exists v, bn_as n = Some v /\ z = asn v) \/ (bn_as n = None /\ z = asn g_as)).

Lemma node_as_iff : forall n z, z <> 0%Z -> (node_as asn g_mod g_as n = z <-> in_as n z).
Proof.
  intros n z Z0. unfold node_as, in_as, runs_bgp.
  assert (AV : asn (match bn_as n with Some v => v | None => g_as end) = z <-> ((exists v, bn_as n = Some v /\ z = asn v) \/ (bn_as n = None /\ z = asn g_as))).
  { destruct (bn_as n) as [v|].
    - split; [intros K; left; exists v; split; [reflexivity|symmetry; exact K]|]. intros [[w [K1 K2]]|[K _]]; [injection K1 as K1; subst w; symmetry; exact K2|discriminate K].
    - split; [intros K; right; split; [reflexivity|symmetry; exact K]|]. intros [[w [K _]]|[_ K]]; [discriminate K|symmetry; exact K]. }
  assert (B : forall l, (if memS "bgp" l then asn (match bn_as n with Some v => v | None => g_as end) else 0%Z) = z <->
     In "bgp" l /\ ((exists v, bn_as n = Some v /\ z = asn v) \/ (bn_as n = None /\ z = asn g_as))).
  { intros l. destruct (memS "bgp" l) eqn:M.
    - apply memS_true in M. rewrite AV. split; [intros K; split; assumption|intros [_ K]; exact K].
    - apply memS_false in M. split; [intros K; exfalso; apply Z0; symmetry; exact K|intros [K _]; contradiction]. }
  destruct (bn_mod n) as [[l|]|].
  - rewrite B. split.
    + intros [K1 K2]. split; [left; exists l; split; [reflexivity|exact K1]|]. split; assumption.
    + intros [[[l' [K1 K2]]|[K1 _]] [_ K3]]; [injection K1 as K1; subst l'; split; assumption|discriminate K1].
  - split; [intros K; exfalso; apply Z0; symmetry; exact K|]. intros [[[l' [K _]]|[K _]] _]; discriminate K.
  - rewrite B. split.
    + intros [K1 K2]. split; [right; split; [reflexivity|exact K1]|]. split; assumption.
    + intros [[[l' [K1 _]]|[_ K1]] [_ K3]]; [discriminate K1|split; assumption].
Qed.

Lemma as_group_inj : forall a b, as_group a = as_group b -> a = b.
Proof. intros a b H. unfold as_group in H. apply Vrf_Props.string_app_inj in H. apply Vrf_Props.zdec_inj. exact H. Qed.

Lemma add_as_fold : forall nodes groups g,
  let sel := filter (fun x : string * bnode => negb (node_as asn g_mod g_as (snd x) =? 0)%Z && String.eqb (as_group (node_as asn g_mod g_as (snd x))) g) nodes in
  dget g (fold_left (add_as asn g_mod g_as) nodes groups) =
  match sel with [] => dget g groups | _ => Some (match dget g groups with Some l => l | None => [] end ++ map fst sel) end.
Proof.
  induction nodes as [|x nodes IH]; intros groups g; cbn [fold_left filter]; [reflexivity|]. cbv zeta in IH |- *. rewrite IH. clear IH. unfold add_as. set (z := node_as asn g_mod g_as (snd x)). clearbody z.
  destruct (z =? 0)%Z; cbn [negb andb]; [reflexivity|]. destruct (String.eqb_spec (as_group z) g) as [Q|Q].
  - subst g. rewrite dget_dset_same.
    destruct (filter (fun x0 : string * bnode => negb (node_as asn g_mod g_as (snd x0) =? 0)%Z && String.eqb (as_group (node_as asn g_mod g_as (snd x0))) (as_group z)) nodes) as [|y r]; [reflexivity|].
    rewrite <- app_assoc. reflexivity.
  - rewrite dget_dset_other by (intros K; apply Q; symmetry; exact K). reflexivity.
Qed.

(* The group of an AS: static members, then the BGP nodes of that AS in order; other groups do not change. *)
Theorem as_groups_exact : forall nodes groups groups' errs, as_groups asn g_mod g_as nodes groups = (groups', errs) ->
  (forall z, z <> 0%Z -> exists keep, (forall x n, In (x, n) nodes -> (keep (x, n) = true <-> in_as n z)) /\
     (filter keep nodes = [] -> dget ("as" ++ Vrf_Model.zdec z) groups' = dget ("as" ++ Vrf_Model.zdec z) groups) /\
     (filter keep nodes <> [] -> dget ("as" ++ Vrf_Model.zdec z) groups' =
        Some (match dget ("as" ++ Vrf_Model.zdec z) groups with Some l => l | None => [] end ++ map fst (filter keep nodes)))) /\
  (forall g, (forall z, z <> 0%Z -> g <> ("as" ++ Vrf_Model.zdec z)%string) -> dget g groups' = dget g groups).
Proof.
  intros nodes groups groups' errs H. unfold as_groups in H. injection H as H _. subst groups'. split.
  - intros z Z0. fold (as_group z). exists (fun x => negb (node_as asn g_mod g_as (snd x) =? 0)%Z && String.eqb (as_group (node_as asn g_mod g_as (snd x))) (as_group z)). split; [|split].
    + intros x n _. cbn [snd]. rewrite <- (node_as_iff n z Z0), andb_true_iff, negb_true_iff, Z.eqb_neq, String.eqb_eq. split; [intros [_ K]; apply as_group_inj; exact K|]. intros K. rewrite K. split; [exact Z0|reflexivity].
    + intros E. rewrite add_as_fold. cbv zeta. rewrite E. reflexivity.
    + intros N. rewrite add_as_fold. cbv zeta. set (sel := filter _ nodes) in *. destruct sel as [|y r]; [exfalso; apply N; reflexivity|reflexivity].
  - intros g NG. rewrite add_as_fold. cbv zeta.
    assert (E : filter (fun x : string * bnode => negb (node_as asn g_mod g_as (snd x) =? 0)%Z && String.eqb (as_group (node_as asn g_mod g_as (snd x))) g) nodes = []).
    { induction nodes as [|x nodes IH]; [reflexivity|]. cbn [filter]. destruct (Z.eqb_spec (node_as asn g_mod g_as (snd x)) 0) as [Q|Q]; cbn [negb andb]; [exact IH|].
      destruct (String.eqb_spec (as_group (node_as asn g_mod g_as (snd x))) g) as [R|R]; [exfalso; exact (NG _ Q (eq_sym R))|exact IH]. }
    rewrite E. reflexivity.
Qed.

Lemma as_exists_spec : forall names nodes seen, NoDup (as_exists asn g_mod g_as names seen nodes) /\
  forall e, In e (as_exists asn g_mod g_as names seen nodes) <->
    exists z x n, e = AExists (as_group z) /\ In (x, n) nodes /\ z <> 0%Z /\ node_as asn g_mod g_as n = z /\ In (as_group z) names /\ ~ In (as_group z) seen.
Proof.
  intros names nodes. induction nodes as [|[x n] nodes IH]; intros seen; cbn [as_exists].
  - split; [constructor|]. intros e. split; [intros []|]. intros [z [x [n [_ [[] _]]]]].
  - set (z := node_as asn g_mod g_as n). destruct (Z.eqb_spec z 0) as [Z0|Z0].
    + destruct (IH seen) as [A B]. split; [exact A|]. intros e. rewrite B. split.
      * intros [z' [x' [n' [E [I K]]]]]. exists z', x', n'. split; [exact E|]. split; [right; exact I|exact K].
      * intros [z' [x' [n' [E [[I|I] [K1 [K2 K3]]]]]]]; [injection I as E1 E2; subst x' n'; exfalso; apply K1; rewrite <- K2; exact Z0|]. exists z', x', n'. split; [exact E|]. split; [exact I|]. split; [exact K1|]. split; assumption.
    + destruct (memS (as_group z) names) eqn:M.
      2:{ apply memS_false in M. destruct (IH seen) as [A B]. split; [exact A|]. intros e. rewrite B. split.
          - intros [z' [x' [n' [E [I K]]]]]. exists z', x', n'. split; [exact E|]. split; [right; exact I|exact K].
          - intros [z' [x' [n' [E [[I|I] [K1 [K2 [K3 K4]]]]]]]]; [injection I as E1 E2; subst x' n'; exfalso; apply M; unfold z; rewrite K2; exact K3|]. exists z', x', n'. repeat (split; [assumption|]). assumption. }
      apply memS_true in M. destruct (IH (seen ++ [as_group z])) as [A B].
      assert (NS : forall e, In e (as_exists asn g_mod g_as names (seen ++ [as_group z]) nodes) -> e <> AExists (as_group z)).
      { intros e I E. apply B in I. destruct I as [z' [x' [n' [E2 [_ [_ [_ [_ K]]]]]]]]. apply K. apply in_or_app. right. left. rewrite E in E2. congruence. }
      destruct (memS (as_group z) seen) eqn:S1.
      * apply memS_true in S1. cbn [app]. split; [exact A|]. intros e. rewrite B. split.
        -- intros [z' [x' [n' [E [I [K1 [K2 [K3 K4]]]]]]]]. exists z', x', n'. split; [exact E|]. split; [right; exact I|]. split; [exact K1|]. split; [exact K2|]. split; [exact K3|]. intros K. apply K4. apply in_or_app. left. exact K.
        -- intros [z' [x' [n' [E [[I|I] [K1 [K2 [K3 K4]]]]]]]]; [injection I as E1 E2; subst x' n'; exfalso; apply K4; rewrite <- K2; exact S1|].
           exists z', x', n'. split; [exact E|]. split; [exact I|]. split; [exact K1|]. split; [exact K2|]. split; [exact K3|]. intros K. apply in_app_or in K. destruct K as [K|[K|[]]]; [contradiction|]. apply K4. rewrite <- K. exact S1.
      * apply memS_false in S1. cbn [app]. split; [constructor; [intros K; exact (NS _ K eq_refl)|exact A]|]. intros e. cbn [In]. rewrite B. split.
        -- intros [E|[z' [x' [n' [E [I [K1 [K2 [K3 K4]]]]]]]]].
           ++ exists z, x, n. split; [symmetry; exact E|]. split; [left; reflexivity|]. split; [exact Z0|]. split; [reflexivity|]. split; assumption.
           ++ exists z', x', n'. split; [exact E|]. split; [right; exact I|]. split; [exact K1|]. split; [exact K2|]. split; [exact K3|]. intros K. apply K4. apply in_or_app. left. exact K.
        -- intros [z' [x' [n' [E [[I|I] [K1 [K2 [K3 K4]]]]]]]].
           ++ injection I as E1 E2. subst x' n'. left. rewrite E, <- K2. reflexivity.
           ++ destruct (string_dec (as_group z') (as_group z)) as [Q|Q]; [left; rewrite E, Q; reflexivity|]. right. exists z', x', n'. split; [exact E|]. split; [exact I|]. split; [exact K1|]. split; [exact K2|]. split; [exact K3|].
              intros K. apply in_app_or in K. destruct K as [K|[K|[]]]; [contradiction|]. apply Q. symmetry. exact K.
Qed.

Lemma NoDup_join : forall {A} (a b : list A), NoDup a -> NoDup b -> (forall x, In x a -> ~ In x b) -> NoDup (a ++ b).
Proof.
  intros A a b NA NB D. induction a as [|x a IH]; [exact NB|]. apply NoDup_cons_iff in NA. destruct NA as [N NA]. cbn [app]. constructor.
  - intros K. apply in_app_or in K. destruct K as [K|K]; [contradiction|]. exact (D x (or_introl eq_refl) K).
  - apply IH; [exact NA|]. intros y Y. apply D. right. exact Y.
Qed.

Lemma is_as_group_iff : forall s, is_as_group s = true <-> exists r, s = ("as" ++ r)%string /\ r <> "" /\ forall c, In c (list_ascii_of_string r) -> is_digit c = true.
Proof.
  intros s. split.
  - intros H. unfold is_as_group in H.
    destruct s as [|c1 [|c2 [|c3 r]]]; try (destruct c1 as [[|] [|] [|] [|] [|] [|] [|] [|]]; discriminate H);
      try (destruct c1 as [[|] [|] [|] [|] [|] [|] [|] [|]]; try discriminate H; destruct c2 as [[|] [|] [|] [|] [|] [|] [|] [|]]; discriminate H); [discriminate H|].
    destruct c1 as [[|] [|] [|] [|] [|] [|] [|] [|]]; try discriminate H; destruct c2 as [[|] [|] [|] [|] [|] [|] [|] [|]]; try discriminate H.
    apply andb_true_iff in H. destruct H as [H1 H2]. exists (String c3 r). split; [reflexivity|]. split; [discriminate|]. cbn [list_ascii_of_string In]. intros c [K|K]; [subst c; exact H1|]. rewrite Types_Props.all_chars_In in H2. exact (H2 c K).
  - intros [[|c r] [E [N D]]]; [exfalso; apply N; reflexivity|]. subst s. cbn [append is_as_group]. rewrite (D c (or_introl eq_refl)). cbn [andb]. apply Types_Props.all_chars_In. intros x I. apply D. right. exact I.
Qed.

(* Errors: groups named after an AS with static members, and once for every AS group with the name of a node. *)
Theorem as_errors_exact : forall nodes groups groups' errs, NoDup (dkeys groups) -> as_groups asn g_mod g_as nodes groups = (groups', errs) ->
  NoDup errs /\ forall e, In e errs <->
    (exists g m l r, e = AStatic g /\ In (g, m :: l) groups /\ g = ("as" ++ r)%string /\ r <> "" /\ forall c, In c (list_ascii_of_string r) -> is_digit c = true) \/
    (exists z x n, e = AExists ("as" ++ Vrf_Model.zdec z) /\ In (x, n) nodes /\ in_as n z /\ In ("as" ++ Vrf_Model.zdec z)%string (dkeys nodes)).
Proof.
  intros nodes groups groups' errs ND H. unfold as_groups in H. injection H as _ H. subst errs. destruct (as_exists_spec (dkeys nodes) nodes []) as [A B]. set (ex := as_exists asn g_mod g_as (dkeys nodes) [] nodes) in *. clearbody ex.
  set (f := fun g : string * list string => if is_as_group (fst g) && negb (match snd g with [] => true | _ => false end) then [AStatic (fst g)] else []).
  assert (FI : forall l e, In e (flat_map f l) <-> exists g m r, e = AStatic g /\ In (g, m :: r) l /\ is_as_group g = true).
  { intros l e. rewrite in_flat_map. split.
    - intros [[g ms] [I K]]. unfold f in K. cbn [fst snd] in K. destruct (is_as_group g) eqn:G; [|destruct K]. destruct ms as [|m r]; [destruct K|]. destruct K as [K|[]]. exists g, m, r. split; [symmetry; exact K|]. split; [exact I|exact G].
    - intros [g [m [r [E [I G]]]]]. exists (g, m :: r). split; [exact I|]. unfold f. cbn [fst snd]. rewrite G. left. symmetry. exact E. }
  split.
  - assert (N1 : NoDup (flat_map f groups)).
    { clear - ND FI. induction groups as [|[g ms] groups IH]; [constructor|]. cbn [dkeys map fst] in ND. apply NoDup_cons_iff in ND. destruct ND as [N ND]. cbn [flat_map]. unfold f at 1. cbn [fst snd]. destruct (is_as_group g && negb (match ms with [] => true | _ => false end)); [|exact (IH ND)].
      cbn [app]. constructor; [|exact (IH ND)]. intros K. apply FI in K. destruct K as [g' [m [r [E [I _]]]]]. injection E as E. subst g'. apply N. apply in_map_iff. exists (g, m :: r). split; [reflexivity|exact I]. }
    apply NoDup_join; [exact N1|exact A|]. intros e K1 K2. apply FI in K1. apply B in K2. destruct K1 as [g [m [r [E _]]]]. destruct K2 as [z [x [n [E2 _]]]]. rewrite E in E2. discriminate E2.
  - intros e. rewrite in_app_iff, FI, B. split.
    + intros [[g [m [r [E [I G]]]]]|[z [x [n [E [I [Z0 [K [M _]]]]]]]]].
      * left. apply is_as_group_iff in G. destruct G as [t [G1 [G2 G3]]]. exists g, m, r, t. repeat (split; [assumption|]). assumption.
      * right. exists z, x, n. split; [exact E|]. split; [exact I|]. split; [apply (node_as_iff n z Z0); exact K|exact M].
    + intros [[g [m [l [r [E [I [G1 [G2 G3]]]]]]]]|[z [x [n [E [I [K M]]]]]]].
      * left. exists g, m, l. split; [exact E|]. split; [exact I|]. apply is_as_group_iff. exists r. repeat (split; [assumption|]). assumption.
      * right. assert (Z0 : z <> 0%Z) by (destruct K as [_ [K _]]; exact K). exists z, x, n. split; [exact E|]. split; [exact I|]. split; [exact Z0|]. split; [apply (node_as_iff n z Z0); exact K|]. split; [exact M|intros []].
Qed.
End As.

(* ------------------------------------------------------------------ *)
(* Data exported from groups                                            *)

Section Export.
Variables copy unique : list string.

(* a group gives a value to an attribute of an object *)
Definition gives (groups : dict (dict (dict val))) (k : nat) (obj a : string) (v : val) : Prop :=
  exists g d o, nth_error groups k = Some (g, d) /\ visible g /\ dget obj d = Some o /\ dget a o = Some v.

(* the value of an attribute before group [k]: the one in the topology, otherwise the one in the first group that gives it *)
Definition value_before (groups : dict (dict (dict val))) (t : dict (dict val)) (k : nat) (obj a : string) (v : val) : Prop :=
  dget a (attrs obj t) = Some v \/
  (dget a (attrs obj t) = None /\ In a copy /\ exists j, j < k /\ gives groups j obj a v /\ forall i w, i < j -> ~ gives groups i obj a w).

Lemma copy_missing_spec : forall have new a, dget a (copy_missing copy have new) =
  match dget a have with Some v => Some v | None => if memS a copy then dget a new else None end.
Proof.
  intros have new a. unfold copy_missing. revert have. induction copy as [|b l IH]; intros have; cbn [fold_left]; [unfold memS; cbn [existsb]; destruct (dget a have); reflexivity|]. rewrite IH. clear IH.
  unfold memS. cbn [existsb]. fold (memS a l). destruct (String.eqb_spec a b) as [Q|Q]; cbn [orb].
  - subst b. destruct (dget a new) as [v|] eqn:N.
    + unfold dmem. destruct (dget a have) as [w|] eqn:H; [rewrite H; reflexivity|rewrite dget_dset_same; reflexivity].
    + destruct (dget a have); [reflexivity|]. destruct (memS a l); reflexivity.
  - destruct (dget b new) as [v|]; [|reflexivity]. destruct (dmem b have); [reflexivity|]. rewrite dget_dset_other by exact Q. reflexivity.
Qed.

Lemma attrs_dset : forall o x d t, attrs o (dset x d t) = if String.eqb o x then d else attrs o t.
Proof.
  intros o x d t. unfold attrs. destruct (String.eqb_spec o x) as [Q|Q]; [subst o; rewrite dget_dset_same; reflexivity|rewrite dget_dset_other by exact Q; reflexivity].
Qed.

Lemma export_group : forall g d t errs, NoDup (dkeys d) -> let r := fold_left (export_object copy unique g) d (t, errs) in
  (forall o, attrs o (fst r) = match dget o d with Some new => copy_missing copy (attrs o t) new | None => attrs o t end) /\
  (forall o, In o (dkeys (fst r)) <-> In o (dkeys t) \/ In o (dkeys d)) /\
  (forall e, In e (snd r) <-> In e errs \/ exists o new, dget o d = Some new /\ In e (conflicts unique g o (attrs o t) new)).
Proof.
  intros g d. induction d as [|[o new] d IH]; intros t errs ND; cbn [fold_left].
  - cbv zeta. cbn [fst snd]. split; [reflexivity|]. split; [intros o; split; [intros K; left; exact K|intros [K|[]]; exact K]|]. intros e. split; [intros K; left; exact K|intros [K|[o [new [K _]]]]; [exact K|discriminate K]].
  - cbn [dkeys map fst] in ND. apply NoDup_cons_iff in ND. destruct ND as [NO ND].
    assert (DN : dget o d = None) by (apply dget_None; exact NO).
    assert (ST : export_object copy unique g (t, errs) (o, new) = (dset o (copy_missing copy (attrs o t) new) t, errs ++ conflicts unique g o (attrs o t) new)) by reflexivity.
    rewrite ST. clear ST. specialize (IH (dset o (copy_missing copy (attrs o t) new) t) (errs ++ conflicts unique g o (attrs o t) new) ND). cbv zeta in IH |- *. destruct IH as [A [B C]]. split; [|split].
    + intros x. rewrite A, attrs_dset. cbn [dget]. destruct (String.eqb_spec x o) as [Q|Q]; [subst x; rewrite DN; reflexivity|reflexivity].
    + intros x. rewrite B. cbn [dkeys map fst In]. assert (KS : In x (dkeys (dset o (copy_missing copy (attrs o t) new) t)) <-> o = x \/ In x (dkeys t)).
      { rewrite <- !dmem_true. unfold dmem. destruct (string_dec x o) as [Q|Q]; [subst x; rewrite dget_dset_same; split; [intros _; left; reflexivity|reflexivity]|]. rewrite dget_dset_other by exact Q. split; [intros K; right; exact K|intros [K|K]; [exfalso; apply Q; symmetry; exact K|exact K]]. }
      rewrite KS. split; [intros [[K|K]|K]; [right; left; exact K|left; exact K|right; right; exact K]|intros [K|[K|K]]; [left; right; exact K|left; left; exact K|right; exact K]].
    + intros e. rewrite C, in_app_iff. cbn [dget]. split.
      * intros [[K|K]|[x [n [K1 K2]]]]; [left; exact K|right; exists o, new; rewrite String.eqb_refl; split; [reflexivity|exact K]|].
        right. exists x, n. destruct (String.eqb_spec x o) as [Q|Q]; [subst x; rewrite DN in K1; discriminate K1|]. split; [exact K1|]. rewrite attrs_dset in K2. apply String.eqb_neq in Q. rewrite Q in K2. exact K2.
      * intros [K|[x [n [K1 K2]]]]; [left; left; exact K|]. destruct (String.eqb_spec x o) as [Q|Q]; [injection K1 as K1; subst x n; left; right; exact K2|]. right. exists x, n. split; [exact K1|]. rewrite attrs_dset. apply String.eqb_neq in Q. rewrite Q. exact K2.
Qed.

Lemma conflicts_iff : forall g o have new e, In e (conflicts unique g o have new) <->
  exists a x y, e = (g, o, a) /\ In a unique /\ dget a have = Some x /\ dget a new = Some y /\ x <> y.
Proof.
  intros g o have new e. unfold conflicts. rewrite in_flat_map. split.
  - intros [a [I K]]. destruct (dget a have) as [x|] eqn:X; [|destruct K]. destruct (dget a new) as [y|] eqn:Y; [|destruct K]. pose proof (Clone_Props.veqb_true x y) as V. destruct (Clone_Model.veqb x y); [destruct K|].
    destruct K as [K|[]]. exists a, x, y. split; [symmetry; exact K|]. split; [exact I|]. split; [exact X|]. split; [exact Y|]. intros E. apply V in E. discriminate E.
  - intros [a [x [y [E [I [X [Y N]]]]]]]. exists a. split; [exact I|]. rewrite X, Y. destruct (Clone_Model.veqb x y) eqn:V; [apply Clone_Props.veqb_true in V; contradiction|]. left. symmetry. exact E.
Qed.

Lemma gives_app : forall groups x k obj a v, k < length groups -> (gives (groups ++ [x]) k obj a v <-> gives groups k obj a v).
Proof. intros groups x k obj a v L. unfold gives. rewrite nth_error_app1 by exact L. reflexivity. Qed.

Lemma before_app : forall groups x t k obj a v, k <= length groups -> (value_before (groups ++ [x]) t k obj a v <-> value_before groups t k obj a v).
Proof.
  intros groups x t k obj a v L. unfold value_before. apply or_iff_compat_l. split; intros [H1 [H2 [j [J [G N]]]]]; (split; [exact H1|]); (split; [exact H2|]); exists j; (split; [exact J|]).
  - split; [apply (gives_app groups x j); [lia|exact G]|]. intros i w I K. apply (N i w I). apply gives_app; [lia|exact K].
  - split; [apply gives_app; [lia|exact G]|]. intros i w I K. apply (N i w I). apply (gives_app groups x i); [lia|exact K].
Qed.

Lemma export_data_app : forall groups x t, export_data copy unique (groups ++ [x]) t =
  if hidden (fst x) then export_data copy unique groups t else fold_left (export_object copy unique (fst x)) (snd x) (export_data copy unique groups t).
Proof. intros groups x t. unfold export_data. rewrite fold_left_app. reflexivity. Qed.

(* Objects of the topology after the export, and conflicts: a value in the topology stays, a missing copied attribute gets the value of the first
   group that has it; a conflict is a value that differs from the one that counts at that point. *)
Theorem export_exact : forall groups t t' errs, (forall g d, In (g, d) groups -> NoDup (dkeys d)) -> export_data copy unique groups t = (t', errs) ->
  (forall obj a v, dget a (attrs obj t') = Some v <-> value_before groups t (length groups) obj a v) /\
  (forall obj, In obj (dkeys t') <-> In obj (dkeys t) \/ exists g d, In (g, d) groups /\ visible g /\ In obj (dkeys d)) /\
  (forall g obj a, In (g, obj, a) errs <-> exists k d v w, nth_error groups k = Some (g, d) /\ gives groups k obj a v /\ In a unique /\ value_before groups t k obj a w /\ w <> v).
Proof.
  intros groups t t' errs ND H. revert t' errs H ND. induction groups as [|[g d] groups IH] using rev_ind; intros t' errs H ND.
  - unfold export_data in H. cbn [fold_left] in H. injection H as H1 H2. subst t' errs. split; [|split].
    + intros obj a v. unfold value_before. split; [intros K; left; exact K|]. intros [K|[_ [_ [j [J _]]]]]; [exact K|]. cbn [length] in J. lia.
    + intros obj. split; [intros K; left; exact K|intros [K|[g [d [[] _]]]]; exact K].
    + intros g obj a. split; [intros []|]. intros [k [d [v [w [K _]]]]]. destruct k; discriminate K.
  - rewrite export_data_app in H. cbn [fst snd] in H.
    destruct (export_data copy unique groups t) as [t1 e1] eqn:F1.
    destruct (IH t1 e1 eq_refl (fun g0 d0 I => ND g0 d0 (in_or_app _ _ _ (or_introl I)))) as [A [B C]]. clear IH F1.
    assert (LAST : nth_error (groups ++ [(g, d)]) (length groups) = Some (g, d)) by (rewrite nth_error_app2 by lia; rewrite Nat.sub_diag; reflexivity).
    assert (VB : forall obj a v, value_before (groups ++ [(g, d)]) t (length groups) obj a v <-> dget a (attrs obj t1) = Some v) by (intros obj a v; rewrite before_app by lia; symmetry; apply A).
    assert (OLD : forall obj a gn, (exists k d0 v w, nth_error (groups ++ [(g, d)]) k = Some (gn, d0) /\ gives (groups ++ [(g, d)]) k obj a v /\ In a unique /\ value_before (groups ++ [(g, d)]) t k obj a w /\ w <> v) <->
       In (gn, obj, a) e1 \/ (gn = g /\ exists v w, gives (groups ++ [(g, d)]) (length groups) obj a v /\ In a unique /\ dget a (attrs obj t1) = Some w /\ w <> v)).
    { intros obj a gn. rewrite C. split.
      - intros [k [d0 [v [w [N [G [U [W Q]]]]]]]]. assert (L : k < length (groups ++ [(g, d)])) by (apply nth_error_Some; rewrite N; discriminate). rewrite app_length in L. cbn [length] in L.
        destruct (Nat.eq_dec k (length groups)) as [E|E].
        + right. subst k. rewrite LAST in N. injection N as N1 N2. split; [symmetry; exact N1|]. exists v, w. split; [exact G|]. split; [exact U|]. split; [apply VB; exact W|exact Q].
        + left. exists k, d0, v, w. rewrite nth_error_app1 in N by lia. split; [exact N|]. split; [apply (gives_app groups (g, d) k); [lia|exact G]|]. split; [exact U|]. split; [apply (before_app groups (g, d) t k); [lia|exact W]|exact Q].
      - intros [[k [d0 [v [w [N [G [U [W Q]]]]]]]]|[E [v [w [G [U [W Q]]]]]]].
        + assert (L : k < length groups) by (apply nth_error_Some; rewrite N; discriminate). exists k, d0, v, w. rewrite nth_error_app1 by lia. split; [exact N|]. split; [apply gives_app; [lia|exact G]|]. split; [exact U|]. split; [apply before_app; [lia|exact W]|exact Q].
        + subst gn. exists (length groups), d, v, w. split; [exact LAST|]. split; [exact G|]. split; [exact U|]. split; [apply VB; exact W|exact Q]. }
    assert (NEW : forall obj a v, value_before (groups ++ [(g, d)]) t (length (groups ++ [(g, d)])) obj a v <->
       dget a (attrs obj t1) = Some v \/ (dget a (attrs obj t1) = None /\ In a copy /\ gives (groups ++ [(g, d)]) (length groups) obj a v)).
    { intros obj a v. rewrite <- VB. split.
      - intros [K|[K1 [K2 [j [J [G N]]]]]]; [left; left; exact K|]. rewrite app_length in J. cbn [length] in J. destruct (Nat.eq_dec j (length groups)) as [E|E].
        + right. subst j. split; [|split; assumption]. destruct (dget a (attrs obj t1)) as [w|] eqn:W; [|reflexivity]. exfalso. apply VB in W. destruct W as [W|[_ [_ [j [J2 [G2 _]]]]]]; [rewrite K1 in W; discriminate W|]. exact (N j w J2 G2).
        + left. right. split; [exact K1|]. split; [exact K2|]. exists j. split; [lia|]. split; assumption.
      - intros [[K|[K1 [K2 [j [J [G N]]]]]]|[K1 [K2 G]]].
        + left. exact K.
        + right. split; [exact K1|]. split; [exact K2|]. exists j. split; [rewrite app_length; lia|]. split; assumption.
        + assert (K0 : forall w, ~ value_before (groups ++ [(g, d)]) t (length groups) obj a w) by (intros w W; apply VB in W; rewrite K1 in W; discriminate W).
          right. split; [destruct (dget a (attrs obj t)) as [w|] eqn:W; [exfalso; apply (K0 w); left; exact W|reflexivity]|]. split; [exact K2|]. exists (length groups). split; [rewrite app_length; cbn [length]; lia|]. split; [exact G|].
          intros i. assert (TN : dget a (attrs obj t) = None) by (destruct (dget a (attrs obj t)) as [w|] eqn:W; [exfalso; apply (K0 w); left; exact W|reflexivity]).
          induction i as [i IHi] using (well_founded_induction Wf_nat.lt_wf). intros w L GI. apply (K0 w). right. split; [exact TN|]. split; [exact K2|]. exists i. split; [exact L|]. split; [exact GI|]. intros i2 w2 L2. apply (IHi i2 L2). lia. }
    destruct (hidden g) eqn:HG; cbv beta iota in H.
    + injection H as H1 H2. subst t' errs.
      assert (NG : forall obj a v, ~ gives (groups ++ [(g, d)]) (length groups) obj a v).
      { intros obj a v [g' [d' [o [N [V _]]]]]. rewrite LAST in N. injection N as N1 N2. subst g' d'. apply hidden_iff in V. rewrite HG in V. discriminate V. }
      split; [|split].
      * intros obj a v. rewrite NEW. split; [intros K; left; exact K|intros [K|[_ [_ K]]]; [exact K|exfalso; exact (NG _ _ _ K)]].
      * intros obj. rewrite B. apply or_iff_compat_l. split.
        -- intros [g' [d' [I K]]]. exists g', d'. split; [apply in_or_app; left; exact I|exact K].
        -- intros [g' [d' [I [V K]]]]. apply in_app_or in I. destruct I as [I|[I|[]]]; [exists g', d'; split; [exact I|]; split; assumption|]. injection I as I1 I2. subst g'. apply hidden_iff in V. rewrite HG in V. discriminate V.
      * intros gn obj a. rewrite OLD. split; [intros K; left; exact K|intros [K|[_ [v [w [K _]]]]]; [exact K|exfalso; exact (NG _ _ _ K)]].
    + pose proof (export_group g d t1 e1 (ND g d (in_elt (g, d) groups []))) as EG. cbv zeta in EG. rewrite H in EG. cbn [fst snd] in EG. destruct EG as [EA [EB EC]]. apply hidden_iff in HG.
      assert (GV : forall obj a v, gives (groups ++ [(g, d)]) (length groups) obj a v <-> exists o, dget obj d = Some o /\ dget a o = Some v).
      { intros obj a v. split.
        - intros [g' [d' [o [N [V [K1 K2]]]]]]. rewrite LAST in N. injection N as N1 N2. subst g' d'. exists o. split; assumption.
        - intros [o [K1 K2]]. exists g, d, o. repeat (split; [assumption|]). assumption. }
      split; [|split].
      * intros obj a v. rewrite NEW, GV, EA. destruct (dget obj d) as [o|] eqn:D.
        -- rewrite copy_missing_spec. destruct (dget a (attrs obj t1)) as [w|]; [split; [intros K; left; exact K|intros [K|[K _]]; [exact K|discriminate K]]|]. destruct (memS a copy) eqn:M.
           ++ apply memS_true in M. split; [intros K; right; split; [reflexivity|]; split; [exact M|]; exists o; split; [reflexivity|exact K]|]. intros [K|[_ [_ [o' [K1 K2]]]]]; [discriminate K|]. injection K1 as K1. subst o'. exact K2.
           ++ apply memS_false in M. split; [discriminate|]. intros [K|[_ [K _]]]; [discriminate K|contradiction].
        -- split; [intros K; left; exact K|]. intros [K|[_ [_ [o [K _]]]]]; [exact K|discriminate K].
      * intros obj. rewrite EB, B. split.
        -- intros [[K|[g' [d' [I K]]]]|K]; [left; exact K|right; exists g', d'; split; [apply in_or_app; left; exact I|exact K]|right; exists g, d; split; [apply in_or_app; right; left; reflexivity|]; split; assumption].
        -- intros [K|[g' [d' [I [V K]]]]]; [left; left; exact K|]. apply in_app_or in I. destruct I as [I|[I|[]]]; [left; right; exists g', d'; split; [exact I|]; split; assumption|]. injection I as I1 I2. subst d'. right. exact K.
      * intros gn obj a. rewrite OLD, EC. apply or_iff_compat_l. split.
        -- intros [o [new [D K]]]. apply conflicts_iff in K. destruct K as [a' [x [y [E [U [X [Y N]]]]]]]. injection E as E1 E2 E3. subst gn o a'. split; [reflexivity|]. exists y, x. split; [apply GV; exists new; split; assumption|]. split; [exact U|]. split; assumption.
        -- intros [E [v [w [G [U [W N]]]]]]. subst gn. apply GV in G. destruct G as [o [D V]]. exists obj, o. split; [exact D|]. apply conflicts_iff. exists a, w, v. split; [reflexivity|]. repeat (split; [assumption|]). assumption.
Qed.
End Export.

(* ------------------------------------------------------------------ *)
(* Examples                                                             *)

Example x_auto :
  precheck false [("g", mk_ag None ["a"; "b"; "h"] true); ("h", mk_ag None ["c"] false); ("v", mk_ag (Some "vlan") ["red"] true); ("_x", mk_ag None ["z"] true)] [("d", mk_ag None ["e"] true)]
    [("nodes", [("a", VDict [("id", VInt 3)])])] =
  [("nodes", [("a", VDict [("id", VInt 3)]); ("b", VDict [("name", VStr "b"); ("interfaces", VList [])]); ("e", VDict [("name", VStr "e"); ("interfaces", VList [])])]);
   ("vlans", [("red", VDict [])])].
Proof. reflexivity. Qed.

Example x_node_groups :
  add_node_groups [("a", ["g"; "h"]); ("b", ["g"; "v"; "g"]); ("c", [])] [("g", mk_ng None ["b"; "x"]); ("v", mk_ng (Some "vlan") ["red"])] =
  ([("g", mk_ng None ["b"; "x"; "a"]); ("v", mk_ng (Some "vlan") ["red"]); ("h", mk_ng None ["a"])], [("b", "v")]).
Proof. reflexivity. Qed.

Example x_as :
  as_groups (fun v => match v with VInt z => z | _ => 0%Z end) ["bgp"] (VInt 65000)
    [("a", mk_bn None None); ("b", mk_bn (Some (Some ["ospf"])) None); ("as65001", mk_bn None (Some (VInt 65001))); ("c", mk_bn (Some (Some ["bgp"])) (Some (VInt 65001))); ("d", mk_bn (Some None) None); ("e", mk_bn None (Some VNull))]
    [("as65000", ["q"]); ("asx", ["a"])] =
  ([("as65000", ["q"; "a"]); ("asx", ["a"]); ("as65001", ["as65001"; "c"])], [AStatic "as65000"; AExists "as65001"]).
Proof. reflexivity. Qed.

Example x_export :
  export_data ["id"; "vni"] ["id"; "vni"]
    [("g1", [("red", [("id", VInt 10); ("mode", VStr "irb")]); ("blue", [("vni", VInt 5)])]); ("_g", [("red", [("id", VInt 99)])]); ("g2", [("red", [("id", VInt 11); ("vni", VInt 7)]); ("blue", [("id", VInt 2)])])]
    [("blue", [("id", VInt 1)])] =
  ([("blue", [("id", VInt 1); ("vni", VInt 5)]); ("red", [("id", VInt 10); ("vni", VInt 7)])], [("g2", "red", "id"); ("g2", "blue", "id")]).
Proof. reflexivity. Qed.

Print Assumptions auto_create_exact.
Print Assumptions node_groups_exact.
Print Assumptions as_groups_exact.
Print Assumptions as_errors_exact.
Print Assumptions export_exact.
