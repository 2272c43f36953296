(* Properties C145 and C146: links and nodes created by the node.clone plugin. *)
From Coq Require Import String Ascii ZArith Lia Bool List.
From Verif Require Import Base Box_Model Box_Props Dev_Model Text_Model Text_Props Types_Model Types_Props
  Intf_Model Intf_Props Lnk_Model Lnk_Props Clone_Model.
Import ListNotations.
Local Open Scope string_scope.
Local Open Scope list_scope.
Local Open Scope nat_scope.
Set Implicit Arguments.

(* ---------- what the links should be ---------- *)

(* the nodes attached to a link, in any form of the link *)
Definition ends (nodes : list string) (v : val) : list string :=
  match fst (adjust_link_object v "" nodes) with
  | Some d => map intf_node (link_intfs d)
  | None => []
  end.

Definition members (nodes : list string) (v : val) : list val :=
  match fst (adjust_link_object v "" nodes) with Some d => lag_members d | None => [] end.

(* the node is attached to the link or, for a LAG, to one of its members *)
Definition involves (nodes : list string) (name : string) (v : val) : bool :=
  match members nodes v with
  | [] => memS name (ends nodes v)
  | m => existsb (fun x => memS name (ends nodes x)) m
  end.

Definition shifted (c : Z) (o : option val) : option val :=
  match o with Some (VInt z) => Some (VInt (z + c)) | _ => o end.

(* an interface of the c-th copy of a link: the clone replaces the node, the other nodes use the next
   interface index *)
Definition intf_copy (name : string) (c : nat) (clone : string) (i i' : dict val) : Prop :=
  (intf_node i = name -> dget "node" i' = Some (VStr clone) /\ forall k, k <> "node" -> dget k i' = dget k i) /\
  (intf_node i <> name -> dget "ifindex" i' = shifted (Z.of_nat c) (dget "ifindex" i) /\
                          forall k, k <> "ifindex" -> dget k i' = dget k i).

(* an interface of a member of the c-th copy of a LAG *)
Definition lag_intf_copy (name : string) (c : nat) (clone : string) (i i' : dict val) : Prop :=
  (intf_node i = name -> dget "node" i' = Some (VStr clone) /\
                         dget "ifindex" i' = shifted (Z.of_nat c) (dget "ifindex" i) /\
                         forall k, k <> "node" -> k <> "ifindex" -> dget k i' = dget k i) /\
  (intf_node i <> name -> dget "ifindex" i' = shifted (2 * Z.of_nat c) (dget "ifindex" i) /\
                          forall k, k <> "ifindex" -> dget k i' = dget k i).

Definition copy_with (R : dict val -> dict val -> Prop) (d d' : link) : Prop :=
  (forall k, k <> "interfaces" -> dget k d' = dget k d) /\
  exists ifs, interfaces_are d' ifs /\ Forall2 R (link_intfs d) ifs.

Definition lag_copy (nodes : list string) (name : string) (c : nat) (clone : string) (d d' : link) : Prop :=
  (forall k, k <> "lag" -> dget k d' = dget k d) /\
  exists g g' ms, dget "lag" d = Some (VDict g) /\ dget "lag" d' = Some (VDict g') /\
    (forall k, k <> "ifindex" -> k <> "members" -> dget k g' = dget k g) /\
    dget "ifindex" g' = shifted (Z.of_nat c) (dget "ifindex" g) /\
    dget "members" g' = Some (VList (map VDict ms)) /\
    Forall2 (fun m m' => exists ln dm, fst (adjust_link_object m ln nodes) = Some dm /\
                                       copy_with (lag_intf_copy name c clone) dm m')
      (filter (fun m => memS name (ends nodes m)) (lag_members d)) ms.

(* the copies of one link: one for every clone *)
Definition copies_of (nodes : list string) (name : string) (clones : list string) (v : val) (cl : list link) : Prop :=
  exists ln d, fst (adjust_link_object v ln nodes) = Some d /\ length cl = length clones /\
    forall c clone d', nth_error clones c = Some clone -> nth_error cl c = Some d' ->
      match lag_members d with
      | [] => copy_with (intf_copy name c clone) d d'
      | _ => lag_copy nodes name c clone d d'
      end.

Lemma map_as_dict : forall ifs, map as_dict (map VDict ifs) = ifs.
Proof. intros ifs. rewrite map_map. cbn [as_dict]. apply map_id. Qed.

(* ---------- equality of data trees ---------- *)

Lemma val_ind3 : forall P : val -> Prop,
  P VNull -> (forall b, P (VBool b)) -> (forall z, P (VInt z)) -> (forall s, P (VStr s)) ->
  (forall l, Forall P l -> P (VList l)) -> (forall d, Forall (fun kv => P (snd kv)) d -> P (VDict d)) ->
  forall v, P v.
Proof.
  intros P H1 H2 H3 H4 H5 H6. fix IH 1. intros v. destruct v.
  - exact H1.
  - apply H2.
  - apply H3.
  - apply H4.
  - apply H5. induction l as [|x r IHr]; constructor; [apply IH|exact IHr].
  - apply H6. induction d as [|[k x] r IHr]; constructor; [apply IH|exact IHr].
Qed.

Lemma veqb_true : forall a b, veqb a b = true <-> a = b.
Proof.
  induction a as [| x | x | x | l IH | d IH] using val_ind3; intros b; destruct b; cbn [veqb];
    try (split; [discriminate|discriminate]); try (split; reflexivity).
  - rewrite Bool.eqb_true_iff. split; congruence.
  - rewrite Z.eqb_eq. split; congruence.
  - rewrite String.eqb_eq. split; congruence.
  - revert l0. induction IH as [|x r Hx Hr IHr]; intros [|y s]; try (split; [reflexivity || discriminate|discriminate]); try (split; reflexivity).
    rewrite andb_true_iff, Hx, IHr. split.
    + intros [E1 E2]. injection E2 as E2. congruence.
    + intros E. injection E as E1 E2. split; congruence.
  - revert d0. induction IH as [|[k x] r Hx Hr IHr]; intros [|[j y] s]; try (split; [reflexivity || discriminate|discriminate]); try (split; reflexivity).
    cbn [snd] in Hx. rewrite !andb_true_iff, Hx, IHr, String.eqb_eq. split.
    + intros [[E0 E1] E2]. injection E2 as E2. congruence.
    + intros E. injection E as E0 E1 E2. repeat split; congruence.
Qed.

Lemma remove_first_hit : forall x pre post, ~ In x pre -> remove_first x (pre ++ x :: post) = pre ++ post.
Proof.
  induction pre as [|y r IH]; intros post N; cbn [remove_first app].
  - assert (E : veqb x x = true) by (apply veqb_true; reflexivity). rewrite E. reflexivity.
  - destruct (veqb y x) eqn:E.
    + apply veqb_true in E. exfalso. apply N. left; exact E.
    + f_equal. apply IH. intros H. apply N. right; exact H.
Qed.

(* ---------- the name of a link does not matter ---------- *)

Definition agree (a b : link) : Prop := forall k, k <> "_linkname" -> dget k a = dget k b.

Lemma ail_indep : forall n1 n2 nodes l, fst (adjust_interface_list n1 nodes l) = fst (adjust_interface_list n2 nodes l).
Proof.
  intros n1 n2 nodes. induction l as [|x r IH]; cbn [adjust_interface_list]; [reflexivity|].
  destruct (adjust_interface_list n1 nodes r) as [i1 e1], (adjust_interface_list n2 nodes r) as [i2 e2].
  cbn [fst] in IH. subst i2.
  destruct (adjust_interface n1 nodes x) as [d1|x1] eqn:E1, (adjust_interface n2 nodes x) as [d2|x2] eqn:E2; cbn [fst];
    try reflexivity.
  - apply adjust_interface_inl in E1. apply adjust_interface_inl in E2.
    inversion E1; subst; inversion E2; subst; reflexivity.
  - apply adjust_interface_inl in E1. apply (adjust_interface_inl n2) in E1. congruence.
  - apply adjust_interface_inl in E2. apply (adjust_interface_inl n1) in E2. congruence.
Qed.

Lemma items_indep : forall n1 n2 v, fst (interfaces_list n1 v) = fst (interfaces_list n2 v).
Proof. intros n1 n2 v. destruct v; reflexivity. Qed.

Lemma agree_dset : forall a b k v, agree a b -> agree (dset k v a) (dset k v b).
Proof.
  intros a b k v H j J. destruct (String.eqb_spec j k) as [E|E].
  - subst j. rewrite !dget_dset_same. reflexivity.
  - rewrite !dget_dset_other by exact E. apply H; exact J.
Qed.

Lemma sld_indep : forall n1 n2 nodes d a1 a2 ifs e1 e2, agree a1 a2 ->
  forall b1 i1 f1 b2 i2 f2, split_link_dict n1 nodes d a1 ifs e1 = (b1, i1, f1) ->
  split_link_dict n2 nodes d a2 ifs e2 = (b2, i2, f2) -> agree b1 b2 /\ i1 = i2.
Proof.
  intros n1 n2 nodes. induction d as [|[k v] r IH]; intros a1 a2 ifs e1 e2 A b1 i1 f1 b2 i2 f2 H1 H2;
    cbn [split_link_dict] in H1, H2.
  - injection H1 as H1 H1' H1''. injection H2 as H2 H2' H2''. subst. split; [exact A|reflexivity].
  - destruct (memS k nodes).
    + destruct v; exact (@IH _ _ _ _ _ A _ _ _ _ _ _ H1 H2).
    + exact (@IH _ _ _ _ _ (agree_dset k v A) _ _ _ _ _ _ H1 H2).
Qed.

Lemma sls_indep : forall n1 n2 nodes l, fst (split_link_string n1 nodes l) = fst (split_link_string n2 nodes l).
Proof.
  intros n1 n2 nodes. induction l as [|x r IH]; cbn [split_link_string]; [reflexivity|].
  destruct (split_link_string n1 nodes r) as [i1 e1], (split_link_string n2 nodes r) as [i2 e2].
  cbn [fst] in IH. subst i2. destruct (string_node_ok nodes (strip x)); reflexivity.
Qed.

Lemma adjust_indep : forall v n1 n2 nodes,
  match fst (adjust_link_object v n1 nodes), fst (adjust_link_object v n2 nodes) with
  | Some a, Some b => agree a b
  | None, None => True
  | _, _ => False
  end.
Proof.
  intros v n1 n2 nodes. destruct v as [| b | z | s | items | d]; cbn [adjust_link_object fst]; try exact I.
  - pose proof (sls_indep n1 n2 nodes (split "-" s)) as E.
    destruct (split_link_string n1 nodes (split "-" s)) as [i1 e1], (split_link_string n2 nodes (split "-" s)) as [i2 e2].
    cbn [fst] in E |- *. subst i2. intros k K. cbn [dget].
    destruct (String.eqb k "interfaces"); [reflexivity|].
    apply String.eqb_neq in K. rewrite K. reflexivity.
  - pose proof (ail_indep n1 n2 nodes items) as E.
    destruct (adjust_interface_list n1 nodes items) as [i1 e1], (adjust_interface_list n2 nodes items) as [i2 e2].
    cbn [fst] in E |- *. subst i2. intros k K. cbn [dget]. apply String.eqb_neq in K. rewrite K. reflexivity.
  - destruct (dget "interfaces" d) as [v|] eqn:D.
    + pose proof (items_indep n1 n2 v) as E.
      destruct (interfaces_list n1 v) as [l1 e1], (interfaces_list n2 v) as [l2 e2]. cbn [fst] in E. subst l2.
      pose proof (ail_indep n1 n2 nodes l1) as E.
      destruct (adjust_interface_list n1 nodes l1) as [i1 e3], (adjust_interface_list n2 nodes l1) as [i2 e4].
      cbn [fst] in E |- *. subst i2. apply agree_dset. intros k K. rewrite !dget_dset_other by exact K. reflexivity.
    + destruct (split_link_dict n1 nodes d [("_linkname", VStr n1)] [] []) as [[b1 i1] f1] eqn:S1.
      destruct (split_link_dict n2 nodes d [("_linkname", VStr n2)] [] []) as [[b2 i2] f2] eqn:S2.
      cbn [fst].
      assert (A : agree [("_linkname", VStr n1)] [("_linkname", VStr n2)]).
      { intros k K. cbn [dget]. apply String.eqb_neq in K. rewrite K. reflexivity. }
      destruct (@sld_indep _ _ _ _ _ _ _ _ _ A _ _ _ _ _ _ S1 S2) as [B E]. subst i2. apply agree_dset. exact B.
Qed.

Lemma agree_intfs : forall a b, agree a b -> link_intfs a = link_intfs b.
Proof. intros a b H. unfold link_intfs. rewrite (H "interfaces") by discriminate. reflexivity. Qed.

Lemma agree_lag : forall a b, agree a b -> dget "lag" a = dget "lag" b.
Proof. intros a b H. apply H. discriminate. Qed.

Lemma agree_members : forall a b, agree a b -> lag_members a = lag_members b.
Proof. intros a b H. unfold lag_members. rewrite (agree_lag H). reflexivity. Qed.

Lemma ends_any : forall v ln nodes d, fst (adjust_link_object v ln nodes) = Some d ->
  ends nodes v = map intf_node (link_intfs d) /\ members nodes v = lag_members d.
Proof.
  intros v ln nodes d H. pose proof (adjust_indep v ln "" nodes) as A. unfold ends, members. rewrite H in A.
  destruct (fst (adjust_link_object v "" nodes)) as [d0|]; [|contradiction].
  rewrite (agree_intfs A), (agree_members A). split; reflexivity.
Qed.

Lemma ends_none : forall v ln nodes, fst (adjust_link_object v ln nodes) = None ->
  ends nodes v = [] /\ members nodes v = [].
Proof.
  intros v ln nodes H. pose proof (adjust_indep v ln "" nodes) as A. unfold ends, members. rewrite H in A.
  destruct (fst (adjust_link_object v "" nodes)) as [d0|]; [contradiction|]. split; reflexivity.
Qed.

(* ---------- one link ---------- *)

Lemma enumerate_length : forall A (l : list A), length (enumerate l) = length l.
Proof. intros A l. unfold enumerate. rewrite combine_length, seq_length. apply Nat.min_id. Qed.

Lemma combine_seq_nth : forall A (l : list A) s c x,
  nth_error (combine (seq s (length l)) l) c = Some x <-> (fst x = s + c /\ nth_error l c = Some (snd x)).
Proof.
  induction l as [|y r IH]; intros s c x; cbn [length seq combine].
  - destruct c; cbn; split; [discriminate|intros [_ H]; discriminate H|discriminate|intros [_ H]; discriminate H].
  - destruct c as [|c]; cbn [nth_error].
    + destruct x as [a b]. cbn [fst snd]. split.
      * intros H. injection H as H1 H2. subst. split; [lia|reflexivity].
      * intros [H1 H2]. injection H2 as H2. subst. f_equal. f_equal. lia.
    + rewrite IH. split; intros [H1 H2]; (split; [lia|exact H2]).
Qed.

Lemma enumerate_nth : forall A (l : list A) c y, nth_error l c = Some y -> nth_error (enumerate l) c = Some (c, y).
Proof.
  intros A l c y H. apply (combine_seq_nth l 0 c (c, y)). cbn [fst snd]. split; [reflexivity|exact H].
Qed.

Lemma enumerate_map : forall A B (f : nat * A -> B) l c x, nth_error (map f (enumerate l)) c = Some x ->
  forall y, nth_error l c = Some y -> x = f (c, y).
Proof.
  intros A B f l c x H y Y. apply enumerate_nth in Y. apply (map_nth_error f) in Y. congruence.
Qed.

Lemma add_index_spec : forall c i,
  dget "ifindex" (add_index c i) = shifted (Z.of_nat c) (dget "ifindex" i) /\
  forall k, k <> "ifindex" -> dget k (add_index c i) = dget k i.
Proof.
  intros c i. unfold add_index, shifted. destruct (dget "ifindex" i) as [v|] eqn:D.
  - destruct v; try (split; [exact D|reflexivity]).
    split; [apply dget_dset_same|]. intros k K. apply dget_dset_other; exact K.
  - split; [exact D|reflexivity].
Qed.

Lemma clone_intf_spec : forall name c clone i, intf_copy name c clone i (clone_intf name c clone i).
Proof.
  intros name c clone i. unfold intf_copy, clone_intf. destruct (String.eqb_spec (intf_node i) name) as [E|E].
  - split; [|contradiction]. intros _. split; [apply dget_dset_same|]. intros k K. apply dget_dset_other; exact K.
  - split; [contradiction|]. intros _. apply add_index_spec.
Qed.

Lemma link_intfs_set : forall l ifs, link_intfs (set_intfs l ifs) = ifs.
Proof.
  intros l ifs. unfold link_intfs, set_intfs. rewrite dget_dset_same, map_map. cbn [as_dict]. apply map_id.
Qed.

Lemma Forall2_map_r : forall A B (R : A -> B -> Prop) (f : A -> B) l, (forall x, R x (f x)) -> Forall2 R l (map f l).
Proof. intros A B R f l H. induction l; constructor; auto. Qed.

Lemma set_intfs_copy : forall (R : dict val -> dict val -> Prop) (f : dict val -> dict val) l, (forall i, R i (f i)) ->
  copy_with R l (set_intfs l (map f (link_intfs l))).
Proof.
  intros R f l H. split.
  - intros k K. unfold set_intfs. apply dget_dset_other; exact K.
  - exists (map f (link_intfs l)). split; [unfold interfaces_are, set_intfs; apply dget_dset_same|].
    apply Forall2_map_r; exact H.
Qed.

(* Every clone gets a copy of a link its node is attached to: the clone replaces the node, other
   nodes use consecutive interface indices, and nothing else changes. *)
Theorem clone_link_exact : forall name clones l,
  (~ In name (map intf_node (link_intfs l)) -> clone_link name clones l = []) /\
  (In name (map intf_node (link_intfs l)) ->
   length (clone_link name clones l) = length clones /\
   forall c clone d', nth_error clones c = Some clone -> nth_error (clone_link name clones l) c = Some d' ->
     copy_with (intf_copy name c clone) l d').
Proof.
  intros name clones l. unfold clone_link. split; intros H.
  - apply memS_false in H. rewrite H. reflexivity.
  - apply memS_true in H. rewrite H. rewrite map_length, enumerate_length. split; [reflexivity|].
    intros c clone d' HC HD. pose proof (enumerate_map _ _ _ HD HC) as E. subst d'.
    apply set_intfs_copy. intros i. apply clone_intf_spec.
Qed.

(* ---------- lists of links ---------- *)

Lemma process_spec : forall (f : nat -> link -> list link) prefix nodes (inv : val -> bool) (R : val -> list link -> Prop),
  (forall v ln cnt d, fst (adjust_link_object v ln nodes) = Some d ->
     (inv v = false -> f cnt d = []) /\ (inv v = true -> f cnt d <> [] /\ R v (f cnt d))) ->
  (forall v ln, fst (adjust_link_object v ln nodes) = None -> inv v = false) ->
  forall todo cnt pre post, (forall v, In v pre -> inv v = false) ->
  forall cur css errs, process_loop f prefix nodes cnt todo (pre ++ todo ++ post) = (cur, css, errs) ->
  cur = pre ++ filter (fun v => negb (inv v)) todo ++ post ++ map VDict (concat css) /\
  Forall2 R (filter inv todo) css.
Proof.
  intros f prefix nodes inv R HF HN. induction todo as [|l r IH]; intros cnt pre post HP cur css errs H; cbn [process_loop] in H.
  - injection H as H1 H2 H3. subst. cbn. rewrite app_nil_r. split; [reflexivity|constructor].
  - destruct (adjust_link_object l (prefix ++ "links[" ++ dec (S cnt) ++ "]")%string nodes) as [[d|] e] eqn:A.
    + assert (FA : fst (adjust_link_object l (prefix ++ "links[" ++ dec (S cnt) ++ "]")%string nodes) = Some d) by (rewrite A; reflexivity).
      destruct (HF _ _ cnt _ FA) as [F0 F1]. cbn [filter]. destruct (inv l) eqn:V; cbn [negb].
      * destruct (F1 eq_refl) as [F2 F3]. destruct (f cnt d) as [|x xs] eqn:FD; [contradiction|].
        assert (NI : ~ In l pre) by (intros I; apply HP in I; congruence).
        cbn [app] in H. rewrite remove_first_hit in H by exact NI.
        rewrite <- !app_assoc in H.
        destruct (process_loop f prefix nodes (S cnt) r (pre ++ r ++ post ++ map VDict (x :: xs))) as [[c2 r2] e2] eqn:PL.
        injection H as H1 H2 H3. subst cur css errs.
        destruct (IH _ _ _ HP _ _ _ PL) as [E1 E2]. split.
        -- rewrite E1. cbn [concat]. rewrite map_app, <- !app_assoc. reflexivity.
        -- constructor; assumption.
      * rewrite F0 in H by reflexivity.
        destruct (process_loop f prefix nodes (S cnt) r (pre ++ (l :: r) ++ post)) as [[c2 r2] e2] eqn:PL.
        injection H as H1 H2 H3. subst cur css errs.
        assert (EQ : pre ++ (l :: r) ++ post = (pre ++ [l]) ++ r ++ post) by (rewrite <- !app_assoc; reflexivity).
        rewrite EQ in PL.
        assert (HP2 : forall v, In v (pre ++ [l]) -> inv v = false).
        { intros v I. apply in_app_or in I. destruct I as [I|[I|[]]]; [apply HP; exact I|subst; exact V]. }
        destruct (IH _ _ _ HP2 _ _ _ PL) as [E1 E2]. split; [|exact E2].
        rewrite E1, <- !app_assoc. reflexivity.
    + assert (V : inv l = false) by (apply (HN l (prefix ++ "links[" ++ dec (S cnt) ++ "]")%string); rewrite A; reflexivity).
      cbn [filter]. rewrite V. cbn [negb].
      destruct (process_loop f prefix nodes (S cnt) r (pre ++ (l :: r) ++ post)) as [[c2 r2] e2] eqn:PL.
      injection H as H1 H2 H3. subst cur css errs.
      assert (EQ : pre ++ (l :: r) ++ post = (pre ++ [l]) ++ r ++ post) by (rewrite <- !app_assoc; reflexivity).
      rewrite EQ in PL.
      assert (HP2 : forall v, In v (pre ++ [l]) -> inv v = false).
      { intros v I. apply in_app_or in I. destruct I as [I|[I|[]]]; [apply HP; exact I|subst; exact V]. }
      destruct (IH _ _ _ HP2 _ _ _ PL) as [E1 E2]. split; [|exact E2].
      rewrite E1, <- !app_assoc. reflexivity.
Qed.

(* the members of a LAG *)
Definition member_copies (nodes : list string) (name : string) (clones : list string) (v : val) (cl : list link) : Prop :=
  exists ln d, fst (adjust_link_object v ln nodes) = Some d /\ cl = clone_link name clones d /\
    In name (map intf_node (link_intfs d)).

Lemma clone_link_nonempty : forall name clones l, clones <> [] -> In name (map intf_node (link_intfs l)) ->
  clone_link name clones l <> [].
Proof.
  intros name clones l HC HI E. destruct (clone_link_exact name clones l) as [_ H].
  destruct (H HI) as [L _]. rewrite E in L. destruct clones; [contradiction|discriminate L].
Qed.

Lemma members_spec : forall prefix nodes name clones items cur css errs, clones <> [] ->
  process_members prefix nodes name clones items = (cur, css, errs) ->
  Forall2 (member_copies nodes name clones) (filter (fun m => memS name (ends nodes m)) items) css.
Proof.
  intros prefix nodes name clones items cur css errs HC H. unfold process_members in H.
  assert (EQ : items = [] ++ items ++ []) by (rewrite app_nil_r; reflexivity).
  rewrite EQ in H at 2.
  refine (proj2 (@process_spec (fun _ => clone_link name clones) prefix nodes (fun m => memS name (ends nodes m))
            (member_copies nodes name clones) _ _ items 0 [] [] _ cur css errs H)).
  - intros v ln cnt d A. destruct (ends_any _ _ _ A) as [E _]. rewrite E. split; intros V.
    + apply clone_link_exact. apply memS_false. exact V.
    + apply memS_true in V. split; [apply clone_link_nonempty; assumption|].
      exists ln, d. repeat split; assumption.
  - intros v ln A. destruct (ends_none _ _ _ A) as [E _]. rewrite E. reflexivity.
  - intros v [].
Qed.

Lemma shifted_twice : forall a b o, shifted a (shifted b o) = shifted (b + a) o.
Proof.
  intros a b o. unfold shifted. destruct o as [v|]; [|reflexivity]. destruct v; try reflexivity.
  f_equal. f_equal. lia.
Qed.

Lemma lag_intf_spec : forall name c clone i i1, intf_copy name c clone i i1 ->
  lag_intf_copy name c clone i (add_index c i1).
Proof.
  intros name c clone i i1 [H1 H2]. destruct (add_index_spec c i1) as [A1 A2]. split; intros E.
  - destruct (H1 E) as [N O]. split; [rewrite A2 by discriminate; exact N|]. split.
    + rewrite A1, O by discriminate. reflexivity.
    + intros k K1 K2. rewrite A2 by exact K2. apply O; exact K1.
  - destruct (H2 E) as [N O]. split.
    + rewrite A1, N, shifted_twice. f_equal. lia.
    + intros k K. rewrite A2 by exact K. apply O; exact K.
Qed.

Lemma Forall2_map_step : forall A (R S : A -> A -> Prop) (f : A -> A) l m, (forall x y, R x y -> S x (f y)) ->
  Forall2 R l m -> Forall2 S l (map f m).
Proof. intros A R S f l m H F. induction F; constructor; auto. Qed.

Lemma interfaces_are_intfs : forall d ifs, interfaces_are d ifs -> link_intfs d = ifs.
Proof.
  intros d ifs H. unfold interfaces_are in H. unfold link_intfs. rewrite H, map_map. cbn [as_dict]. apply map_id.
Qed.

Lemma lag_members_dict : forall l, lag_members l <> [] -> exists g, dget "lag" l = Some (VDict g).
Proof.
  intros l H. unfold lag_members in H. destruct (dget "lag" l) as [v|]; [|contradiction].
  destruct v; try contradiction. exists d; reflexivity.
Qed.

Lemma lag_index_spec : forall c g,
  dget "ifindex" (lag_index c g) = shifted (Z.of_nat c) (dget "ifindex" g) /\
  forall k, k <> "ifindex" -> dget k (lag_index c g) = dget k g.
Proof.
  intros c g. unfold lag_index, shifted. destruct (dget "ifindex" g) as [v|] eqn:D.
  - destruct v; try (split; [exact D|reflexivity]).
    split; [apply dget_dset_same|]. intros k K. apply dget_dset_other; exact K.
  - split; [exact D|reflexivity].
Qed.

Lemma clone_lag_spec : forall nodes name clones cnt l, clones <> [] -> lag_members l <> [] ->
  (existsb (fun x => memS name (ends nodes x)) (lag_members l) = false -> fst (clone_lag nodes name clones cnt l) = []) /\
  (existsb (fun x => memS name (ends nodes x)) (lag_members l) = true ->
     length (fst (clone_lag nodes name clones cnt l)) = length clones /\
     forall c clone d', nth_error clones c = Some clone -> nth_error (fst (clone_lag nodes name clones cnt l)) c = Some d' ->
       lag_copy nodes name c clone l d').
Proof.
  intros nodes name clones cnt l HC HL. unfold clone_lag.
  destruct (process_members ("lag[" ++ dec (S cnt) ++ "].m") nodes name clones (lag_members l)) as [[cur css] errs] eqn:PM.
  pose proof (@members_spec _ _ _ _ _ _ _ _ HC PM) as F. split; intros V.
  - assert (E : filter (fun m => memS name (ends nodes m)) (lag_members l) = []).
    { clear -V. induction (lag_members l) as [|x r IH]; [reflexivity|]. cbn [existsb] in V. apply orb_false_iff in V.
      destruct V as [V1 V2]. cbn [filter]. rewrite V1. apply IH; exact V2. }
    rewrite E in F. inversion F; subst. reflexivity.
  - destruct css as [|c0 cr] eqn:EC.
    + inversion F as [E|]. exfalso. clear -V E. apply existsb_exists in V. destruct V as [x [I M]].
      assert (J : In x []) by (rewrite E; apply filter_In; split; assumption). contradiction.
    + rewrite <- EC in *. clear c0 cr EC. cbn [fst]. rewrite map_length, enumerate_length. split; [reflexivity|].
      intros c clone d' HN HD. pose proof (enumerate_map _ _ _ HD HN) as E. cbn beta iota in E. subst d'.
      destruct (@lag_members_dict l HL) as [g G]. rewrite G. destruct (lag_index_spec c g) as [LI LO]. split.
      * intros k K. apply dget_dset_other; exact K.
      * exists g, (dset "members" (VList (map (lag_member c) css)) (lag_index c g)),
          (map (fun cl => set_intfs (nth c cl []) (map (add_index c) (link_intfs (nth c cl [])))) css).
        split; [exact G|]. split; [apply dget_dset_same|]. split.
        { intros k K1 K2. rewrite dget_dset_other by exact K2. apply LO; exact K1. }
        split; [rewrite dget_dset_other by discriminate; exact LI|]. split.
        { rewrite dget_dset_same, map_map. reflexivity. }
        clear -F HN. induction F as [|m cl ms css H F IH]; cbn [map]; constructor; [|exact IH].
        destruct H as [ln [d [A [EC HI]]]]. exists ln, d. split; [exact A|].
        destruct (clone_link_exact name clones d) as [_ X]. destruct (X HI) as [L Y]. subst cl.
        destruct (nth_error (clone_link name clones d) c) as [x|] eqn:NX.
        2:{ apply nth_error_None in NX. assert (c < length clones) by (apply nth_error_Some; congruence). lia. }
        rewrite (nth_error_nth _ _ _ NX). destruct (Y _ _ _ HN NX) as [O [ifs [IA FF]]]. split.
        -- intros k K. unfold set_intfs. rewrite dget_dset_other by exact K. apply O; exact K.
        -- exists (map (add_index c) (link_intfs x)). split; [unfold interfaces_are, set_intfs; apply dget_dset_same|].
           rewrite (interfaces_are_intfs IA). apply Forall2_map_step with (2 := FF). intros i i1 R. apply lag_intf_spec; exact R.
Qed.

(* Every link and every LAG attached to the cloned node is replaced with one copy per clone; all
   other links stay as they are. *)
Theorem clone_links_exact : forall prefix nodes name clones items, clones <> [] ->
  exists css, fst (process_links prefix nodes name clones items) =
      filter (fun v => negb (involves nodes name v)) items ++ map VDict (concat css) /\
    Forall2 (copies_of nodes name clones) (filter (involves nodes name) items) css.
Proof.
  intros prefix nodes name clones items HC. unfold process_links.
  destruct (process_loop (clone_item nodes name clones) prefix nodes 0 items items) as [[cur css] errs] eqn:H.
  assert (EQ : items = [] ++ items ++ []) by (rewrite app_nil_r; reflexivity).
  rewrite EQ in H at 2. exists css. cbn [fst].
  destruct (@process_spec (clone_item nodes name clones) prefix nodes (involves nodes name) (copies_of nodes name clones))
    with (todo := items) (cnt := 0) (pre := @nil val) (post := @nil val) (cur := cur) (css := css) (errs := errs) as [E F].
  - intros v ln cnt d A. destruct (ends_any _ _ _ A) as [E1 E2]. unfold involves, clone_item. rewrite E1, E2.
    destruct (lag_members d) as [|m0 mr] eqn:LM.
    + split; intros V.
      * apply clone_link_exact. apply memS_false. exact V.
      * apply memS_true in V. split; [apply clone_link_nonempty; assumption|].
        destruct (clone_link_exact name clones d) as [_ X]. destruct (X V) as [L Y].
        exists ln, d. split; [exact A|]. split; [exact L|]. rewrite LM. exact Y.
    + assert (HL : lag_members d <> []) by (rewrite LM; discriminate).
      destruct (@clone_lag_spec nodes name clones cnt d HC HL) as [X0 X1]. rewrite LM in X0, X1. split; intros V.
      * apply X0; exact V.
      * destruct (X1 V) as [L Y]. split.
        -- intros EM. rewrite EM in L. destruct clones; [contradiction|discriminate L].
        -- exists ln, d. split; [exact A|]. split; [exact L|]. rewrite LM. exact Y.
  - intros v ln A. destruct (ends_none _ _ _ A) as [E1 E2]. unfold involves. rewrite E1, E2. reflexivity.
  - intros v [].
  - exact H.
  - cbn [app] in E. rewrite E. split; [reflexivity|exact F].
Qed.

(* ---------- consequences ---------- *)

Lemma adjust_interfaces : forall v ln nodes d, fst (adjust_link_object v ln nodes) = Some d ->
  exists ifs, interfaces_are d ifs.
Proof.
  intros v ln nodes d H. unfold interfaces_are.
  destruct v as [| b | z | s | items | x]; cbn [adjust_link_object fst] in H; try discriminate H.
  - destruct (split_link_string ln nodes (split "-" s)) as [i e]. injection H as H. subst d.
    exists i. reflexivity.
  - destruct (adjust_interface_list ln nodes items) as [i e]. injection H as H. subst d. exists i. reflexivity.
  - destruct (dget "interfaces" x).
    + destruct (interfaces_list ln v) as [l1 e1]. destruct (adjust_interface_list ln nodes l1) as [i e].
      injection H as H. subst d. exists i. apply dget_dset_same.
    + destruct (split_link_dict ln nodes x [("_linkname", VStr ln)] [] []) as [[b i] f]. injection H as H. subst d.
      exists i. apply dget_dset_same.
Qed.

Definition known (nodes : list string) (i : dict val) : bool :=
  match dget "node" i with Some (VStr s) => memS s nodes | _ => false end.

Lemma ail_dicts : forall ln nodes ifs, fst (adjust_interface_list ln nodes (map VDict ifs)) = filter (known nodes) ifs.
Proof.
  intros ln nodes. induction ifs as [|i r IH]; cbn [map adjust_interface_list filter]; [reflexivity|].
  destruct (adjust_interface_list ln nodes (map VDict r)) as [x e]. cbn [fst] in IH. subst x.
  cbn [adjust_interface]. destruct (known nodes i) eqn:K; unfold known in K;
    destruct (dget "node" i) as [v|]; try discriminate K; try reflexivity;
    destruct v; try discriminate K; try reflexivity; rewrite K; reflexivity.
Qed.

Lemma adjust_dict : forall nodes d ifs, interfaces_are d ifs ->
  fst (adjust_link_object (VDict d) "" nodes) =
  Some (dset "interfaces" (VList (map VDict (filter (known nodes) ifs))) (dset "_linkname" (VStr "") d)).
Proof.
  intros nodes d ifs H. cbn [adjust_link_object]. rewrite H. cbn [interfaces_list].
  pose proof (ail_dicts "" nodes ifs) as E.
  destruct (adjust_interface_list "" nodes (map VDict ifs)) as [x e]. cbn [fst] in E |- *. subst x. reflexivity.
Qed.

Lemma ends_dict : forall nodes d ifs, interfaces_are d ifs ->
  ends nodes (VDict d) = map intf_node (filter (known nodes) ifs).
Proof.
  intros nodes d ifs H. unfold ends. rewrite (adjust_dict nodes H). unfold link_intfs.
  rewrite dget_dset_same, map_as_dict. reflexivity.
Qed.

Lemma members_dict : forall nodes d ifs, interfaces_are d ifs -> members nodes (VDict d) = lag_members d.
Proof.
  intros nodes d ifs H. unfold members. rewrite (adjust_dict nodes H). unfold lag_members.
  rewrite !dget_dset_other by discriminate. reflexivity.
Qed.

Lemma copy_node : forall name c clone i i', intf_copy name c clone i i' \/ lag_intf_copy name c clone i i' ->
  (intf_node i = name -> intf_node i' = clone) /\ (intf_node i <> name -> intf_node i' = intf_node i).
Proof.
  intros name c clone i i' [[H1 H2]|[H1 H2]]; (split; intros E).
  - destruct (H1 E) as [N _]. unfold intf_node. rewrite N. reflexivity.
  - destruct (H2 E) as [_ N]. unfold intf_node. rewrite N by discriminate. reflexivity.
  - destruct (H1 E) as [N _]. unfold intf_node. rewrite N. reflexivity.
  - destruct (H2 E) as [_ N]. unfold intf_node. rewrite N by discriminate. reflexivity.
Qed.

Lemma Forall2_In_r : forall A B (R : A -> B -> Prop) l m y, Forall2 R l m -> In y m -> exists x, In x l /\ R x y.
Proof.
  intros A B R l m y F. induction F as [|a b l m H F IH]; intros I; [contradiction|].
  destruct I as [I|I].
  - subst. exists a. split; [left; reflexivity|exact H].
  - destruct (IH I) as [x [X1 X2]]. exists x. split; [right; exact X1|exact X2].
Qed.

Lemma copy_gone : forall nodes name c clone (R : dict val -> dict val -> Prop) d d',
  (forall i i', R i i' -> intf_copy name c clone i i' \/ lag_intf_copy name c clone i i') ->
  clone <> name -> copy_with R d d' -> memS name (ends nodes (VDict d')) = false.
Proof.
  intros nodes name c clone R d d' HR HN [_ [ifs [IA F]]]. apply memS_false. rewrite (ends_dict nodes IA).
  intros I. apply in_map_iff in I. destruct I as [i' [E I]]. apply filter_In in I. destruct I as [I _].
  destruct (Forall2_In_r _ F I) as [i [_ RI]]. destruct (copy_node (HR _ _ RI)) as [A B].
  destruct (string_dec (intf_node i) name) as [Q|Q].
  - rewrite (A Q) in E. contradiction.
  - rewrite (B Q) in E. contradiction.
Qed.

(* No link is attached to the cloned node any longer, unless a clone has its name. *)
Theorem cloned_node_gone : forall prefix nodes name clones items v, clones <> [] -> ~ In name clones ->
  In v (fst (process_links prefix nodes name clones items)) -> involves nodes name v = false.
Proof.
  intros prefix nodes name clones items v HC HN I.
  destruct (clone_links_exact prefix nodes name items HC) as [css [E F]]. rewrite E in I.
  apply in_app_or in I. destruct I as [I|I].
  - apply filter_In in I. apply negb_true_iff. exact (proj2 I).
  - apply in_map_iff in I. destruct I as [d' [EV I]]. subst v. apply in_concat in I. destruct I as [cl [ICL I]].
    destruct (Forall2_In_r _ F ICL) as [x [IX [ln [d [A [L Y]]]]]].
    apply filter_In in IX. destruct IX as [_ INV].
    apply In_nth_error in I. destruct I as [c HD].
    destruct (nth_error clones c) as [clone|] eqn:HCL.
    2:{ apply nth_error_None in HCL. assert (c < length clones) by (rewrite <- L; apply nth_error_Some; unfold link, dict in *; congruence). lia. }
    assert (NC : clone <> name) by (intros Q; subst; apply HN; apply nth_error_In with c; exact HCL).
    specialize (Y _ _ _ HCL HD). destruct (ends_any _ _ _ A) as [EE EM].
    destruct (adjust_interfaces _ _ _ A) as [ifs0 IA0].
    unfold involves. destruct (lag_members d) as [|m0 mr] eqn:LM.
    + assert (IFS : exists ifs, interfaces_are d' ifs) by (destruct Y as [_ [ifs [Z _]]]; exists ifs; exact Z).
      destruct IFS as [ifs IA]. rewrite (members_dict nodes IA).
      assert (LE : lag_members d' = []).
      { rewrite <- LM. unfold lag_members. rewrite (proj1 Y) by discriminate. reflexivity. }
      rewrite LE. apply (@copy_gone nodes name c clone _ d d') with (3 := Y); [|exact NC].
      intros i i' H; left; exact H.
    + destruct Y as [O [g [g' [ms [G [G' [_ [_ [GM FM]]]]]]]]].
      assert (IA : interfaces_are d' ifs0) by (unfold interfaces_are in *; rewrite O by discriminate; exact IA0).
      rewrite (members_dict nodes IA).
      assert (LE : lag_members d' = map VDict ms) by (unfold lag_members; rewrite G', GM; reflexivity).
      rewrite LE. rewrite LM in FM.
      assert (FA : forall m', In m' ms -> memS name (ends nodes (VDict m')) = false).
      { intros m' IM. destruct (Forall2_In_r _ FM IM) as [m [_ [ln' [dm [_ CW]]]]].
        apply (@copy_gone nodes name c clone _ dm m') with (3 := CW); [|exact NC]. intros i i' H; right; exact H. }
      destruct ms as [|m1 mr1] eqn:EMS.
      * exfalso. inversion FM as [EF|]. unfold involves in INV. rewrite EM in INV.
        apply existsb_exists in INV. destruct INV as [z [IZ MZ]].
        assert (J : In z (filter (fun m => memS name (ends nodes m)) (m0 :: mr))) by (apply filter_In; split; assumption).
        cbn [filter] in J. rewrite <- EF in J. contradiction.
      * cbn [map].
        change (existsb (fun x0 => memS name (ends nodes x0)) (map VDict (m1 :: mr1)) = false).
        destruct (existsb (fun x0 => memS name (ends nodes x0)) (map VDict (m1 :: mr1))) eqn:EX; [|reflexivity].
        apply existsb_exists in EX. destruct EX as [z [IZ MZ]]. apply in_map_iff in IZ.
        destruct IZ as [m' [EZ IM]]. subst z. rewrite (FA _ IM) in MZ. discriminate MZ.
Qed.

(* The number of links. *)
Theorem clone_links_count : forall prefix nodes name clones items, clones <> [] ->
  length (fst (process_links prefix nodes name clones items)) =
  length (filter (fun v => negb (involves nodes name v)) items) +
  length clones * length (filter (involves nodes name) items).
Proof.
  intros prefix nodes name clones items HC.
  destruct (clone_links_exact prefix nodes name items HC) as [css [E F]].
  rewrite E, app_length, map_length. f_equal. clear E.
  induction F as [|v cl vs css H F IH]; cbn [concat length]; [lia|].
  destruct H as [ln [d [_ [L _]]]]. unfold link, dict in *. rewrite app_length, L, IH. lia.
Qed.

(* ---------- cloning both ends of a link ---------- *)

Definition subst_node (a x n : string) : string := if String.eqb n a then x else n.

Lemma copy_ends : forall nodes' name c clone d d',
  copy_with (intf_copy name c clone) d d' ->
  (forall i, In i (link_intfs d) -> exists s, dget "node" i = Some (VStr s)) ->
  incl (map (subst_node name clone) (map intf_node (link_intfs d))) nodes' ->
  ends nodes' (VDict d') = map (subst_node name clone) (map intf_node (link_intfs d)).
Proof.
  intros nodes' name c clone d d' [_ [ifs [IA F]]] HS HI. rewrite (ends_dict nodes' IA). clear IA.
  induction F as [|i i' l m R F IH]; cbn [map filter]; [reflexivity|].
  assert (EN : intf_node i' = subst_node name clone (intf_node i) /\ exists s, dget "node" i' = Some (VStr s)).
  { unfold subst_node. destruct R as [R1 R2]. destruct (String.eqb_spec (intf_node i) name) as [Q|Q].
    - destruct (R1 Q) as [N _]. unfold intf_node at 1. rewrite N. split; [reflexivity|exists clone; reflexivity].
    - destruct (R2 Q) as [_ N]. unfold intf_node at 1. rewrite N by discriminate. split; [reflexivity|].
      apply HS. left; reflexivity. }
  destruct EN as [EN [s ES]].
  assert (K : known nodes' i' = true).
  { unfold known. rewrite ES. apply memS_true.
    assert (intf_node i' = s) by (unfold intf_node; rewrite ES; reflexivity).
    rewrite <- H, EN. apply HI. left; reflexivity. }
  rewrite K. cbn [map]. rewrite EN. f_equal. apply IH.
  - intros j J. apply HS. right; exact J.
  - intros y Y. apply HI. right; exact Y.
Qed.

Lemma ail_nodes : forall ln nodes l i, In i (fst (adjust_interface_list ln nodes l)) -> exists s, dget "node" i = Some (VStr s).
Proof.
  intros ln nodes. induction l as [|x r IH]; intros i I; cbn [adjust_interface_list] in I; [contradiction|].
  destruct (adjust_interface_list ln nodes r) as [j e]. cbn [fst] in IH.
  destruct (adjust_interface ln nodes x) as [d|e'] eqn:A; cbn [fst] in I; [|exact (IH _ I)].
  destruct I as [I|I]; [|exact (IH _ I)]. subst d. apply adjust_interface_inl in A.
  inversion A; subst; [exists n; reflexivity|exists n; assumption].
Qed.

Lemma sld_nodes : forall ln nodes d attrs ifs errs b i f, split_link_dict ln nodes d attrs ifs errs = (b, i, f) ->
  (forall x, In x ifs -> exists s, dget "node" x = Some (VStr s)) ->
  forall x, In x i -> exists s, dget "node" x = Some (VStr s).
Proof.
  intros ln nodes. induction d as [|[k v] r IH]; intros attrs ifs errs b i f H HS x X; cbn [split_link_dict] in H.
  - injection H as H1 H2 H3. subst. apply HS; exact X.
  - destruct (memS k nodes); [|exact (IH _ _ _ _ _ _ H HS _ X)].
    destruct v; try exact (IH _ _ _ _ _ _ H HS _ X).
    + apply (IH _ _ _ _ _ _ H) with (2 := X). intros y Y. apply in_app_or in Y. destruct Y as [Y|[Y|[]]]; [apply HS; exact Y|].
      subst y. exists k. reflexivity.
    + apply (IH _ _ _ _ _ _ H) with (2 := X). intros y Y. apply in_app_or in Y. destruct Y as [Y|[Y|[]]]; [apply HS; exact Y|].
      subst y. exists k. apply dget_dset_same.
Qed.

Lemma adjust_nodes : forall v ln nodes d, fst (adjust_link_object v ln nodes) = Some d ->
  forall i, In i (link_intfs d) -> exists s, dget "node" i = Some (VStr s).
Proof.
  intros v ln nodes d H i I.
  destruct v as [| b | z | s | items | x]; cbn [adjust_link_object fst] in H; try discriminate H.
  - destruct (split_link_string ln nodes (split "-" s)) as [j e] eqn:S. injection H as H. subst d.
    unfold link_intfs in I. cbn [dget String.eqb Ascii.eqb Bool.eqb] in I. rewrite map_as_dict in I.
    revert j e S I. induction (split "-" s) as [|p r IH]; intros j e S I; cbn [split_link_string] in S.
    + injection S as S1 S2. subst. contradiction.
    + destruct (split_link_string ln nodes r) as [j1 e1].
      destruct (string_node_ok nodes (strip p)); injection S as S1 S2; subst.
      * destruct I as [I|I]; [subst i; exists (strip p); reflexivity|exact (IH _ _ eq_refl I)].
      * exact (IH _ _ eq_refl I).
  - pose proof (ail_nodes ln nodes items) as AN.
    destruct (adjust_interface_list ln nodes items) as [j e]. injection H as H. subst d.
    unfold link_intfs in I. cbn [dget String.eqb Ascii.eqb Bool.eqb] in I. rewrite map_as_dict in I.
    apply AN; exact I.
  - destruct (dget "interfaces" x).
    + destruct (interfaces_list ln v) as [l1 e1]. pose proof (ail_nodes ln nodes l1) as AN.
      destruct (adjust_interface_list ln nodes l1) as [j e]. injection H as H. subst d.
      unfold link_intfs in I. rewrite dget_dset_same, map_as_dict in I. apply AN; exact I.
    + destruct (split_link_dict ln nodes x [("_linkname", VStr ln)] [] []) as [[b j] f] eqn:S. injection H as H. subst d.
      unfold link_intfs in I. rewrite dget_dset_same, map_as_dict in I.
      apply (sld_nodes _ _ _ _ _ _ S) with (2 := I). intros y [].
Qed.

Lemma map_nth_ext : forall A B C (f : A -> C) (g : B -> C) (l : list A) (m : list B), length l = length m ->
  (forall c a b, nth_error l c = Some a -> nth_error m c = Some b -> f a = g b) -> map f l = map g m.
Proof.
  intros A B C f g. induction l as [|a r IH]; intros [|b m] L H; try discriminate L; [reflexivity|].
  cbn [map]. f_equal.
  - apply (H 0 a b); reflexivity.
  - apply IH; [injection L as L; exact L|]. intros c x y X Y. apply (H (S c) x y); assumption.
Qed.

Lemma clone_ends : forall prefix nodes nodes' name clones items, clones <> [] ->
  (forall v, In v items -> members nodes v = [] /\ In name (ends nodes v)) ->
  (forall v x, In v items -> In x clones -> incl (map (subst_node name x) (ends nodes v)) nodes') ->
  map (ends nodes') (fst (process_links prefix nodes name clones items)) =
    flat_map (fun v => map (fun x => map (subst_node name x) (ends nodes v)) clones) items /\
  forall w, In w (fst (process_links prefix nodes name clones items)) -> members nodes' w = [].
Proof.
  intros prefix nodes nodes' name clones items HC HI HN.
  destruct (clone_links_exact prefix nodes name items HC) as [css [E F]]. rewrite E. clear E.
  assert (INV : forall v, In v items -> involves nodes name v = true).
  { intros v I. destruct (HI v I) as [M N]. unfold involves. rewrite M. apply memS_true; exact N. }
  assert (F1 : filter (fun v => negb (involves nodes name v)) items = []).
  { clear -INV. induction items as [|v r IH]; [reflexivity|]. cbn [filter]. rewrite INV by (left; reflexivity). cbn [negb].
    apply IH. intros w W. apply INV. right; exact W. }
  assert (F2 : filter (involves nodes name) items = items).
  { clear -INV. induction items as [|v r IH]; [reflexivity|]. cbn [filter]. rewrite INV by (left; reflexivity).
    f_equal. apply IH. intros w W. apply INV. right; exact W. }
  rewrite F1. rewrite F2 in F. cbn [app]. clear F1 F2 INV.
  induction F as [|v cl vs css H F IH]; cbn [concat map flat_map]; [split; [reflexivity|intros w []]|].
  destruct IH as [IH1 IH2]; [intros; apply HI; right; assumption|intros w x W X; apply HN; [right; exact W|exact X]|].
  destruct H as [ln [d [A [L Y]]]]. destruct (ends_any _ _ _ A) as [EE EM].
  destruct (HI v (or_introl eq_refl)) as [M N]. rewrite M in EM.
  rewrite map_app, map_app. split.
  - f_equal; [|exact IH1]. rewrite map_map. apply map_nth_ext; [exact L|].
    intros c d' x HD HX. specialize (Y _ _ _ HX HD). rewrite <- EM in Y. rewrite EE.
    apply copy_ends with (c := c); [exact Y|exact (adjust_nodes _ _ _ A)|].
    rewrite <- EE. apply HN; [left; reflexivity|]. apply nth_error_In with c; exact HX.
  - intros w W. apply in_app_or in W. destruct W as [W|W]; [|apply IH2; exact W].
    apply in_map_iff in W. destruct W as [d' [EW W]]. subst w. apply In_nth_error in W. destruct W as [c HD].
    destruct (nth_error clones c) as [x|] eqn:HX.
    2:{ apply nth_error_None in HX. assert (c < length clones) by (rewrite <- L; apply nth_error_Some; unfold link, dict in *; congruence). lia. }
    specialize (Y _ _ _ HX HD). rewrite <- EM in Y. destruct Y as [O [ifs [IA _]]].
    rewrite (members_dict nodes' IA), EM. unfold lag_members. rewrite O by discriminate. reflexivity.
Qed.

(* A link between two cloned nodes becomes a full mesh: one link between every two clones. *)
Theorem clone_full_mesh : forall prefix nodes1 nodes2 nodes3 a b ca cb v,
  a <> b -> ca <> [] -> cb <> [] -> ~ In b ca ->
  members nodes1 v = [] -> ends nodes1 v = [a; b] ->
  In b nodes2 -> incl ca nodes2 -> incl ca nodes3 -> incl cb nodes3 ->
  map (ends nodes3) (fst (process_links prefix nodes2 b cb (fst (process_links prefix nodes1 a ca [v])))) =
  flat_map (fun x => map (fun y => [x; y]) cb) ca.
Proof.
  intros prefix nodes1 nodes2 nodes3 a b ca cb v AB HA HB NB M E IB I2 I3 J3.
  assert (EB : String.eqb b a = false) by (apply String.eqb_neq; congruence).
  destruct (@clone_ends prefix nodes1 nodes2 a ca [v] HA) as [E1 M1].
  { intros w [W|[]]. subst w. rewrite E. split; [exact M|left; reflexivity]. }
  { intros w x [W|[]] X. subst w. rewrite E. cbn [map]. unfold subst_node. rewrite String.eqb_refl, EB.
    intros y [Y|[Y|[]]]; subst y; [apply I2; exact X|exact IB]. }
  cbn [flat_map] in E1. rewrite app_nil_r, E in E1. cbn [map] in E1.
  set (L := fst (process_links prefix nodes1 a ca [v])) in *. clearbody L.
  assert (ED : map (ends nodes2) L = map (fun x => [x; b]) ca).
  { rewrite E1. apply map_ext. intros x. unfold subst_node. rewrite String.eqb_refl, EB. reflexivity. }
  clear E1 M E.
  assert (HE : forall w, In w L -> exists x, In x ca /\ ends nodes2 w = [x; b]).
  { intros w W. assert (J : In (ends nodes2 w) (map (fun x => [x; b]) ca)) by (rewrite <- ED; apply in_map; exact W).
    apply in_map_iff in J. destruct J as [x [J1 J2]]. exists x. split; [exact J2|congruence]. }
  assert (SN : forall x y, In x ca -> map (subst_node b y) [x; b] = [x; y]).
  { intros x y X. cbn [map]. unfold subst_node. rewrite String.eqb_refl.
    assert (Q : String.eqb x b = false) by (apply String.eqb_neq; intros Q; subst; contradiction). rewrite Q. reflexivity. }
  destruct (@clone_ends prefix nodes2 nodes3 b cb L HB) as [E2 _].
  { intros w W. split; [apply M1; exact W|]. destruct (HE w W) as [x [_ Q]]. rewrite Q. right; left; reflexivity. }
  { intros w y W Y. destruct (HE w W) as [x [X Q]]. rewrite Q, (SN _ _ X).
    intros z [Z|[Z|[]]]; subst z; [apply I3; exact X|apply J3; exact Y]. }
  rewrite E2. clear E2 M1.
  assert (HCA : forall x, In x ca -> map (fun y => map (subst_node b y) [x; b]) cb = map (fun y => [x; y]) cb).
  { intros x X. apply map_ext. intros y. apply SN; exact X. }
  clear - ED HCA. revert L ED. induction ca as [|x r IH]; intros [|w L] ED; try discriminate ED; [reflexivity|].
  cbn [map] in ED. injection ED as ED1 ED2. cbn [flat_map]. rewrite ED1, (HCA x (or_introl eq_refl)). f_equal.
  apply IH; [|exact ED2]. intros z Z. apply HCA. right; exact Z.
Qed.
