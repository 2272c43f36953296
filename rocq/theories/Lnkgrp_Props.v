(* Property C118: link lists, link groups and link indices. *)
From Coq Require Import String Ascii ZArith Lia Bool List.
From Verif Require Import Base Box_Model Box_Props Dev_Model Dev_Props Text_Model Text_Props Types_Model Types_Props
  Intf_Model Lnk_Model Lnk_Props.
Import ListNotations.
Local Open Scope string_scope.
Local Open Scope list_scope.
Local Open Scope nat_scope.

(* ---------- specification ---------- *)

(* dictionaries have unique keys, at any depth *)
Inductive dwf : val -> Prop :=
| dw_null : dwf VNull
| dw_bool : forall b, dwf (VBool b)
| dw_int : forall z, dwf (VInt z)
| dw_str : forall s, dwf (VStr s)
| dw_list : forall l, (forall x, In x l -> dwf x) -> dwf (VList l)
| dw_dict : forall d, NoDup (dkeys d) -> (forall k x, In (k, x) d -> dwf x) -> dwf (VDict d).

(* consecutive elements become links with consecutive numbers in their names *)
Inductive numbered (nodes : list string) (path : string) : nat -> list val -> list link -> Prop :=
| nu_nil : forall n, numbered nodes path n [] []
| nu_cons : forall n x r l rs, link_of nodes (path ++ "[" ++ dec n ++ "]") x r ->
    numbered nodes path (S n) l rs -> numbered nodes path n (x :: l) (r :: rs).

Definition enabled (r : link) : bool :=
  match dget "disable" r with Some (VBool true) => false | _ => true end.

(* the links in a list of links, in a single link string, or in a dictionary of these *)
Inductive links_of (nodes : list string) : string -> val -> list link -> Prop :=
| ls_empty : forall path v, In v [VNull; VBool false; VInt 0; VStr ""; VList []; VDict []] -> links_of nodes path v []
| ls_string : forall path s r, s <> "" -> link_of nodes path (VStr s) r -> links_of nodes path (VStr s) [r]
| ls_list : forall path l rs, numbered nodes path 1 l rs -> links_of nodes path (VList l) (filter enabled rs)
| ls_dict : forall path d rs, links_of_dict nodes path d rs -> links_of nodes path (VDict d) rs
with links_of_dict (nodes : list string) : string -> list (string * val) -> list link -> Prop :=
| ld_nil : forall path, links_of_dict nodes path [] []
| ld_cons : forall path k v d r1 r2, links_of nodes (path ++ "." ++ k) v r1 -> links_of_dict nodes path d r2 ->
    links_of_dict nodes path ((k, v) :: d) (r1 ++ r2).

(* the attribute of a group copied into its members *)
Definition group_attr (g : link) (k : string) : option val :=
  if in_dec string_dec k ["group"; "members"; "_linkname"] then None else dget k g.

(* group attributes are merged into the attributes of the member, which take precedence *)
Definition member_link (g r x : link) : Prop := forall k, dget k x = mopt (group_attr g k) (dget k r).

Inductive members_of (nodes : list string) (g : link) (gid : string) : nat -> list val -> list link -> Prop :=
| mo_nil : forall n, members_of nodes g gid n [] []
| mo_cons : forall n m r x ms xs, link_of nodes ("links[" ++ gid ++ "][" ++ dec n ++ "]") m r -> member_link g r x ->
    members_of nodes g gid (S n) ms xs -> members_of nodes g gid n (m :: ms) (x :: xs).

(* the member list of a group *)
Inductive member_list : val -> list val -> Prop :=
| ml_list : forall ms, ms <> [] -> member_list (VList ms) ms
| ml_str : forall s, member_list (VStr s) [VStr s].

Definition group_links (nodes : list string) (g : link) (xs : list link) : Prop :=
  exists gid v ms, dget "group" g = Some (VStr gid) /\ String.length gid <= 16 /\
    dget "members" g = Some v /\ member_list v ms /\ members_of nodes g gid 1 ms xs.

Definition is_group (x : link) : bool := dmem "group" x.

(* consecutive link indices *)
Inductive indexed : Z -> list link -> list link -> Prop :=
| ix_nil : forall i, indexed i [] []
| ix_cons : forall i x y l m, dget "linkindex" y = Some (VInt i) ->
    (forall k, k <> "linkindex" -> dget k y = dget k x) -> indexed (i + 1) l m -> indexed i (x :: l) (y :: m).

(* ---------- link lists ---------- *)

Lemma dwf_wf : forall v, dwf v -> wf v.
Proof.
  intros v H. induction H; cbn; auto. apply wf_VDict. split; auto.
Qed.

Lemma dwf_In : forall l x, dwf (VList l) -> In x l -> dwf x.
Proof. intros l x H. inversion H; auto. Qed.

Lemma enabled_not : forall r, enabled r = negb (is_disabled r).
Proof. intros r. unfold enabled, is_disabled. destruct (dget "disable" r) as [[|[]| | | |]|]; auto. Qed.

Lemma adjust_links_spec : forall path nodes l cnt ls, (forall x, In x l -> dwf x) ->
  adjust_links path nodes cnt l = (ls, []) ->
  exists rs, numbered nodes path (S cnt) l rs /\ ls = filter enabled rs.
Proof.
  intros path nodes. induction l as [|x l IH]; intros cnt ls W H; cbn [adjust_links] in H.
  - injection H as <-. exists []. split; [constructor|auto].
  - destruct (adjust_link_object x (linkname_of path (S cnt)) nodes) as [o e1] eqn:A.
    destruct (adjust_links path nodes (S cnt) l) as [ls' e2] eqn:B.
    assert (E : e1 = [] /\ e2 = []).
    { destruct o as [d|]; [destruct (is_disabled d)|]; injection H as _ H; apply app_eq_nil in H; auto. }
    destruct E as [-> ->].
    assert (Wx : wf x) by (apply dwf_wf, W; left; auto).
    destruct (link_object_exact nodes (linkname_of path (S cnt)) x Wx) as [L [_ N]].
    rewrite A in L, N. cbn [fst snd] in N. destruct o as [d|]; [|exfalso; apply N; auto].
    destruct (IH (S cnt) ls') as [rs [R1 R2]]; [intros y I; apply W; right; auto|auto|].
    exists (d :: rs). split; [constructor; auto; exact (L d eq_refl)|]. cbn [filter]. rewrite enabled_not.
    destruct (is_disabled d); injection H as <-; cbn; congruence.
Qed.

Lemma falsy_cases : forall v, truthy v = false <-> In v [VNull; VBool false; VInt 0; VStr ""; VList []; VDict []].
Proof.
  intros v. split.
  - intros H. destruct v as [|[]|z|s|[|x l]|[|x d]]; cbn in H; try discriminate; cbn; auto 10.
    + apply negb_false_iff in H. apply Z.eqb_eq in H. subst. auto.
    + apply negb_false_iff in H. apply String.eqb_eq in H. subst. auto.
  - intros H. cbn in H. intuition (subst; auto).
Qed.

Section GoList.
  Variable nodes : list string.
  Fixpoint go_list (path : string) (d : list (string * val)) : list link * list lerr :=
    match d with
    | [] => ([], [])
    | (k, v) :: r =>
        let (l1, e1) := adjust_link_list v (path ++ "." ++ k)%string nodes in
        let (l2, e2) := go_list path r in
        (l1 ++ l2, e1 ++ e2)
    end.
End GoList.

Lemma adjust_list_dict : forall d path nodes, d <> [] -> adjust_link_list (VDict d) path nodes = go_list nodes path d.
Proof.
  intros d path nodes N. destruct d as [|[k v] d]; [congruence|]. cbn [adjust_link_list truthy negb go_list]. clear N.
  destruct (adjust_link_list v (path ++ "." ++ k) nodes) as [l1 e1].
  match goal with |- (let (_, _) := ?f d in _) = _ => assert (E : f d = go_list nodes path d) end.
  { induction d as [|[k' v'] d IH]; [reflexivity|]. cbn [go_list]. rewrite <- IH. reflexivity. }
  rewrite E. reflexivity.
Qed.

Theorem link_list_exact : forall nodes links, dwf links -> forall path ls,
  adjust_link_list links path nodes = (ls, []) -> links_of nodes path links ls.
Proof.
  intros nodes. induction 1 as [|b|z|s|l H IH|d N H IH]; intros path ls A.
  - injection A as <-. constructor. cbn. auto.
  - destruct b; cbn in A; [discriminate|]. injection A as <-. constructor. cbn. auto.
  - cbn in A. destruct (Z.eqb_spec z 0); cbn in A; [|discriminate]. injection A as <-. subst. constructor. cbn. auto.
  - cbn [adjust_link_list truthy] in A. destruct (String.eqb_spec s ""); cbn [negb] in A.
    + injection A as <-. subst. constructor. cbn. auto.
    + destruct (adjust_link_object (VStr s) path nodes) as [[r|] e] eqn:E; injection A as <- ->.
      * constructor; auto. apply link_object_sound; [exact I|auto].
      * exfalso. destruct (link_object_exact nodes path (VStr s) I) as [_ [_ K]]. rewrite E in K. apply K; auto.
  - destruct l as [|x l]; [injection A as <-; constructor; cbn; auto 10|].
    cbn [adjust_link_list truthy negb] in A.
    destruct (adjust_links_spec _ _ _ _ _ H A) as [rs [R ->]]. constructor. auto.
  - destruct d as [|kv d]; [injection A as <-; constructor; cbn; auto 10|].
    rewrite adjust_list_dict in A by discriminate. apply ls_dict. revert ls A. clear N H.
    generalize dependent (kv :: d). clear kv d. induction l as [|[k v] l IHl]; intros IH ls A; cbn [go_list] in A.
    + injection A as <-. constructor.
    + destruct (adjust_link_list v (path ++ "." ++ k) nodes) as [l1 e1] eqn:E1.
      destruct (go_list nodes path l) as [l2 e2] eqn:E2. injection A as <- A. apply app_eq_nil in A. destruct A as [-> ->].
      constructor; [apply (IH k); [left; auto|auto]|]. apply IHl; [|auto]. intros k0 x I. apply (IH k0). right. auto.
Qed.

(* ---------- groups ---------- *)

Lemma NoDup_dset_link : forall k v (d : link), NoDup (dkeys d) -> NoDup (dkeys (dset k v d)).
Proof. intros. apply NoDup_dset. auto. Qed.

Lemma split_dict_NoDup : forall ln nodes d attrs ifs errs attrs' ifs' errs', NoDup (dkeys attrs) ->
  split_link_dict ln nodes d attrs ifs errs = (attrs', ifs', errs') -> NoDup (dkeys attrs').
Proof.
  intros ln nodes. induction d as [|[k v] d IH]; intros attrs ifs errs attrs' ifs' errs' N H; cbn [split_link_dict] in H.
  - injection H as <- _ _. auto.
  - destruct (memS k nodes).
    + destruct v; eapply IH; eauto.
    + eapply IH; [|eauto]. apply NoDup_dset_link. auto.
Qed.

Lemma object_NoDup : forall l ln nodes r e, wf l -> adjust_link_object l ln nodes = (Some r, e) -> NoDup (dkeys r).
Proof.
  intros l ln nodes r e W H. unfold adjust_link_object in H. destruct l as [| | |s|items|d]; try discriminate.
  - destruct (split_link_string ln nodes (split "-" s)). injection H as <- _. cbn. repeat constructor; cbn; intuition discriminate.
  - destruct (adjust_interface_list ln nodes items). injection H as <- _. cbn. repeat constructor; cbn; intuition discriminate.
  - apply wf_VDict in W. destruct W as [N _]. destruct (dget "interfaces" d) as [v|].
    + destruct (interfaces_list ln v) as [its e1]. destruct (adjust_interface_list ln nodes its) as [ifs e2].
      injection H as <- _. apply NoDup_dset_link, NoDup_dset_link. auto.
    + destruct (split_link_dict ln nodes d [("_linkname", VStr ln)] [] []) as [[attrs ifs] errs] eqn:E.
      injection H as <- _. apply NoDup_dset_link. eapply split_dict_NoDup; [|exact E]. cbn. repeat constructor. intros [].
Qed.

Lemma group_data_attr : forall g k, dget k (group_data g) = group_attr g k.
Proof.
  intros g k. unfold group_data, group_attr.
  destruct (in_dec string_dec k ["group"; "members"; "_linkname"]) as [I|I].
  - cbn in I. destruct I as [<-|[<-|[<-|[]]]].
    + rewrite dget_dpop_other, dget_dpop_other by discriminate. apply dget_dpop_same.
    + rewrite dget_dpop_other by discriminate. apply dget_dpop_same.
    + apply dget_dpop_same.
  - cbn in I. rewrite !dget_dpop_other by (intros E; apply I; subst; auto). auto.
Qed.

Lemma expand_members_spec : forall nodes g gid ms idx xs, (forall x, In x ms -> dwf x) ->
  expand_members nodes ("links[" ++ gid ++ "]") (group_data g) idx ms = (Some xs, []) ->
  members_of nodes g gid (S idx) ms xs.
Proof.
  intros nodes g gid. induction ms as [|m ms IH]; intros idx xs W H; cbn [expand_members] in H.
  - injection H as <-. constructor.
  - destruct (adjust_link_object m (linkname_of ("links[" ++ gid ++ "]") (S idx)) nodes) as [[r|] e1] eqn:A; [|discriminate].
    destruct (expand_members nodes ("links[" ++ gid ++ "]") (group_data g) (S idx) ms) as [[ls|] e2] eqn:B; [|discriminate].
    rewrite merge_dicts in H. injection H as <- H. apply app_eq_nil in H. destruct H as [-> ->].
    assert (Wm : wf m) by (apply dwf_wf, W; left; auto).
    apply mo_cons with (r := r).
    + pose proof (link_object_sound _ _ _ _ Wm A) as K. unfold linkname_of in K.
      rewrite !app_assoc_str in K. exact K.
    + intros k. rewrite dget_mdict by (eapply object_NoDup; eauto). rewrite group_data_attr. auto.
    + apply IH; auto. intros x I. apply W. right. auto.
Qed.

Definition named_ok (x : link) : Prop :=
  forall gid, dget "group" x = Some (VStr gid) -> link_name x = ("links[" ++ gid ++ "]")%string.

Lemma must_be_id_len : forall n v w, must_be_id n v = Valid w -> exists s, v = VStr s /\ (n > 0 -> String.length s <= n).
Proof.
  intros n v w H. destruct v as [| | |[|c r]| |]; try discriminate. cbn in H.
  destruct (is_word c && negb (is_digit c)); cbn [andb] in H; [|discriminate].
  destruct (all_chars _ r); cbn [andb] in H; [|discriminate].
  destruct (Nat.leb_spec (String.length r) (n - 1)); [|discriminate].
  exists (String c r). split; auto. intros. cbn. lia.
Qed.

Lemma expand_group_spec : forall nodes x a, named_ok x -> (forall v, dget "members" x = Some v -> dwf v) ->
  expand_group nodes x = (Some a, []) ->
  (is_group x = false /\ a = [] /\ dget "members" x = None) \/ (is_group x = true /\ group_links nodes x a).
Proof.
  intros nodes x a N W H. unfold expand_group in H. unfold is_group, dmem. destruct (dget "group" x) as [g|] eqn:G.
  - right. split; auto. destruct (must_be_id 16 g) as [w| |] eqn:M; try discriminate.
    destruct (must_be_id_len _ _ _ M) as [gid [-> L]]. rewrite (N _ G) in H. rename W into W0.
    destruct (dget "members" x) as [v|] eqn:Mb; [|discriminate]. pose proof (W0 v eq_refl) as W.
    exists gid, v. destruct v as [|b|z|s|l|d]; try discriminate.
    + exists [VStr s]. split; [auto|split; [apply L; lia|split; [auto|split; [constructor|]]]].
      eapply expand_members_spec; [|exact H]. intros y [<-|[]]. constructor.
    + destruct l as [|y l]; [discriminate|]. exists (y :: l). split; [auto|split; [apply L; lia|split; [auto|split]]].
      * constructor. discriminate.
      * eapply expand_members_spec; [|exact H]. intros z I. eapply dwf_In; eauto.
  - left. injection H as <- H. split; [auto|split; [auto|]]. unfold dmem in H. destruct (dget "members" x); [discriminate|auto].
Qed.

Lemma expand_each_spec : forall nodes l added,
  (forall x, In x l -> named_ok x /\ forall v, dget "members" x = Some v -> dwf v) ->
  expand_each nodes l = (Some added, []) ->
  (forall x, In x l -> is_group x = false -> dget "members" x = None) /\
  exists as_, Forall2 (group_links nodes) (filter is_group l) as_ /\ added = concat as_.
Proof.
  intros nodes. induction l as [|x l IH]; intros added W H; cbn [expand_each] in H.
  - injection H as <-. split; [intros x []|]. exists []. split; [constructor|auto].
  - destruct (expand_group nodes x) as [[a|] e1] eqn:A; [|discriminate].
    destruct (expand_each nodes l) as [[b|] e2] eqn:B; [|discriminate].
    injection H as <- H. apply app_eq_nil in H. destruct H as [-> ->].
    destruct (IH b) as [M [as_ [F ->]]]; [intros y I; apply W; right; auto|auto|].
    destruct (W x) as [Nx Wx]; [left; auto|]. destruct (expand_group_spec _ _ _ Nx Wx A) as [[G [-> Mb]]|[G K]].
    + split; [intros y [<-|I]; auto|]. exists as_. cbn [filter]. rewrite G. auto.
    + split; [intros y [<-|I]; [congruence|auto]|]. exists (a :: as_). cbn [filter]. rewrite G. split; [constructor; auto|auto].
Qed.

(* ---------- names and indices ---------- *)

Lemma link_of_name : forall l ln nodes r e, adjust_link_object l ln nodes = (Some r, e) -> dmem "_linkname" r = true.
Proof.
  intros l ln nodes r e H. apply dmem_true. unfold adjust_link_object in H. destruct l as [| | |s|items|d]; try discriminate.
  - destruct (split_link_string ln nodes (split "-" s)). injection H as <- _. cbn. auto.
  - destruct (adjust_interface_list ln nodes items). injection H as <- _. cbn. auto.
  - assert (K : forall k k' v (d : link), In k (dkeys d) -> In k (dkeys (dset k' v d))).
    { intros k k' v d0 I. destruct (in_dec string_dec k' (dkeys d0)) as [J|J].
      - rewrite dkeys_dset_mem; auto.
      - rewrite dkeys_dset_new by auto. apply in_or_app. auto. }
    assert (K' : forall k v (d : link), In k (dkeys (dset k v d))).
    { intros k v d0. eapply dget_Some_key. apply dget_dset_same. }
    destruct (dget "interfaces" d) as [v|].
    + destruct (interfaces_list ln v) as [its e1]. destruct (adjust_interface_list ln nodes its) as [ifs e2].
      injection H as <- _. apply K, K'.
    + destruct (split_link_dict ln nodes d [("_linkname", VStr ln)] [] []) as [[attrs ifs] errs] eqn:E.
      injection H as <- _. apply K. clear - E K.
      assert (Q : forall d attrs ifs errs attrs' ifs' errs', In "_linkname" (dkeys attrs) ->
        split_link_dict ln nodes d attrs ifs errs = (attrs', ifs', errs') -> In "_linkname" (dkeys attrs')).
      { induction d0 as [|[k v] d0 IH]; intros a i e a' i' e' I H; cbn [split_link_dict] in H.
        - injection H as <- _ _. auto.
        - destruct (memS k nodes).
          + destruct v; eapply IH; eauto.
          + eapply IH; [|eauto]. apply K. auto. }
      eapply Q; [|exact E]. cbn. auto.
Qed.

(* every link produced by adjust_link_list has a name and acceptable members *)
Definition link_ok (x : link) : Prop :=
  dmem "_linkname" x = true /\ forall v, dget "members" x = Some v -> dwf v.

Lemma accepted_wf : forall l ln nodes r e, dwf l -> adjust_link_object l ln nodes = (Some r, e) -> link_ok r.
Proof.
  intros l ln nodes r e W H. split; [eapply link_of_name; eauto|]. intros v G.
  unfold adjust_link_object in H. destruct l as [| | |s|items|d]; try discriminate.
  - destruct (split_link_string ln nodes (split "-" s)). injection H as <- _. discriminate.
  - destruct (adjust_interface_list ln nodes items). injection H as <- _. discriminate.
  - inversion W as [| | | | |d' N Wd]; subst d'. destruct (dget "interfaces" d) as [v0|].
    + destruct (interfaces_list ln v0) as [its e1]. destruct (adjust_interface_list ln nodes its) as [ifs e2].
      injection H as <- _. rewrite dget_dset2 in G by discriminate. apply dget_In in G. eauto.
    + destruct (split_link_dict ln nodes d [("_linkname", VStr ln)] [] []) as [[attrs ifs] errs] eqn:E.
      injection H as <- _. rewrite dget_dset_other in G by discriminate.
      destruct (split_dict_spec _ _ _ _ _ _ _ _ _ N E) as [P1 [P2 _]].
      destruct (in_dec string_dec "members" nodes) as [I|I]; [rewrite P2 in G by auto; discriminate|].
      destruct (in_dec string_dec "members" (dkeys d)) as [J|J]; [|rewrite P2 in G by auto; discriminate].
      rewrite P1 in G by auto. apply dget_In in G. eauto.
Qed.

Lemma adjust_links_ok : forall path nodes l cnt ls e, (forall x, In x l -> dwf x) ->
  adjust_links path nodes cnt l = (ls, e) -> Forall link_ok ls.
Proof.
  intros path nodes. induction l as [|x l IH]; intros cnt ls e W H; cbn [adjust_links] in H.
  - injection H as <- _. constructor.
  - destruct (adjust_link_object x (linkname_of path (S cnt)) nodes) as [o e1] eqn:A.
    destruct (adjust_links path nodes (S cnt) l) as [ls' e2] eqn:B.
    assert (F : Forall link_ok ls') by (eapply IH; [intros y I; apply W; right; auto|eauto]).
    destruct o as [d|]; [|injection H as <- _; auto].
    destruct (is_disabled d); injection H as <- _; auto. constructor; auto.
    eapply accepted_wf; [|exact A]. apply W. left. auto.
Qed.

Lemma link_list_ok : forall nodes links, dwf links -> forall path ls e,
  adjust_link_list links path nodes = (ls, e) -> Forall link_ok ls.
Proof.
  intros nodes. induction 1 as [|b|z|s|l H IH|d N H IH]; intros path ls e A.
  - injection A as <- _. constructor.
  - destruct b; cbn in A; injection A as <- _; constructor.
  - cbn in A. destruct (negb (negb (z =? 0)%Z)); injection A as <- _; constructor.
  - cbn [adjust_link_list] in A. destruct (negb (truthy (VStr s))); [injection A as <- _; constructor|].
    destruct (adjust_link_object (VStr s) path nodes) as [[r|] e'] eqn:E; injection A as <- _; [|constructor].
    constructor; [|constructor]. eapply accepted_wf; [|exact E]. constructor.
  - cbn [adjust_link_list] in A. destruct (negb (truthy (VList l))); [injection A as <- _; constructor|].
    eapply adjust_links_ok; eauto.
  - destruct d as [|kv d]; [injection A as <- _; constructor|].
    rewrite adjust_list_dict in A by discriminate. revert ls e A. clear N H.
    generalize dependent (kv :: d). clear kv d. induction l as [|[k v] l IHl]; intros IH ls e A; cbn [go_list] in A.
    + injection A as <- _. constructor.
    + destruct (adjust_link_list v (path ++ "." ++ k) nodes) as [l1 e1] eqn:E1.
      destruct (go_list nodes path l) as [l2 e2] eqn:E2. injection A as <- _. apply Forall_app. split.
      * eapply (IH k); [left; auto|eauto].
      * eapply IHl; [|eauto]. intros k0 x I. apply (IH k0). right. auto.
Qed.

Lemma index_spec : forall l i, indexed i l (index_links i l).
Proof.
  induction l as [|x l IH]; intros i; cbn [index_links]; constructor; auto.
  - apply dget_dset_same.
  - intros k K. apply dget_dset_other. auto.
Qed.

Lemma indexed_nth : forall i l m, indexed i l m -> forall n y, nth_error m n = Some y ->
  dget "linkindex" y = Some (VInt (i + Z.of_nat n)).
Proof.
  intros i l m H. induction H as [|i x y l m G K H IH]; intros n z E; [destruct n; discriminate|].
  destruct n as [|n]; cbn [nth_error] in E.
  - injection E as <-. rewrite G. f_equal. f_equal. lia.
  - rewrite (IH _ _ E). f_equal. f_equal. lia.
Qed.

Lemma set_linkname_group : forall cnt x, is_group (set_linkname cnt x) = is_group x.
Proof.
  intros cnt x. unfold set_linkname, is_group, dmem. destruct (dget "group" x) as [v|] eqn:G.
  - destruct (truthy v); [rewrite dget_dset_other, G by discriminate; auto|].
    destruct (dget "_linkname" x); [rewrite G; auto|rewrite dget_dset_other, G by discriminate; auto].
  - destruct (dget "_linkname" x); [rewrite G; auto|rewrite dget_dset_other, G by discriminate; auto].
Qed.

Lemma set_linkname_get : forall cnt x k, k <> "_linkname" -> dget k (set_linkname cnt x) = dget k x.
Proof.
  intros cnt x k K. unfold set_linkname. destruct (dget "group" x) as [v|];
  [destruct (truthy v); [apply dget_dset_other; auto|]|]; destruct (dmem "_linkname" x); auto; apply dget_dset_other; auto.
Qed.

Lemma set_linknames_filter : forall l cnt, Forall link_ok l ->
  filter (fun x => negb (is_group x)) (set_linknames cnt l) = filter (fun x => negb (is_group x)) l.
Proof.
  induction l as [|x l IH]; intros cnt F; auto. inversion F as [|? ? [F1 _] F2]; subst.
  cbn [set_linknames filter]. rewrite set_linkname_group. rewrite IH by auto.
  destruct (is_group x) eqn:G; cbn [negb]; auto. f_equal. unfold set_linkname. unfold is_group, dmem in G.
  destruct (dget "group" x); [discriminate|]. rewrite F1. auto.
Qed.

Lemma set_linknames_named : forall l cnt, Forall link_ok l ->
  forall x, In x (set_linknames cnt l) -> (exists g, dget "group" x = Some g /\ truthy g = true \/ dget "group" x = None) ->
  named_ok x.
Proof.
  induction l as [|y l IH]; intros cnt F x I T gid G; [destruct I|]. inversion F as [|? ? F1 F2]; subst.
  cbn [set_linknames] in I. destruct I as [<-|I]; [|eapply IH; eauto].
  rewrite set_linkname_get in G by discriminate. unfold link_name, set_linkname. rewrite G.
  destruct T as [g [[T1 T2]|T1]]; rewrite set_linkname_get in T1 by discriminate; [|congruence].
  assert (g = VStr gid) by congruence. subst g. rewrite T2. rewrite dget_dset_same. auto.
Qed.

Lemma group_links_ext : forall nodes cnt x a, group_links nodes (set_linkname cnt x) a -> group_links nodes x a.
Proof.
  intros nodes cnt x a [gid [v [ms [G [L [M [ML MO]]]]]]].
  rewrite set_linkname_get in G by discriminate. rewrite set_linkname_get in M by discriminate.
  exists gid, v, ms. repeat split; auto. clear - MO. induction MO as [|n m r y ms xs LO ME MO IH]; [constructor|].
  apply mo_cons with (r := r); auto. intros k. rewrite ME. unfold group_attr.
  destruct (in_dec string_dec k ["group"; "members"; "_linkname"]) as [I|I]; auto.
  rewrite set_linkname_get; auto. intros ->. apply I. cbn. auto.
Qed.

Lemma group_links_filter : forall nodes l cnt as_,
  Forall2 (group_links nodes) (filter is_group (set_linknames cnt l)) as_ -> Forall2 (group_links nodes) (filter is_group l) as_.
Proof.
  intros nodes. induction l as [|x l IH]; intros cnt as_ F; cbn [set_linknames filter] in *; auto.
  rewrite set_linkname_group in F. destruct (is_group x); [|eauto].
  inversion F; subst. constructor; [eapply group_links_ext; eauto|eauto].
Qed.

Lemma expand_each_truthy : forall nodes l added, expand_each nodes l = (Some added, []) ->
  forall x, In x l -> (exists g, dget "group" x = Some g /\ truthy g = true \/ dget "group" x = None).
Proof.
  intros nodes. induction l as [|y l IH]; intros added H x I; [destruct I|]. cbn [expand_each] in H.
  destruct (expand_group nodes y) as [[a|] e1] eqn:A; [|discriminate].
  destruct (expand_each nodes l) as [[b|] e2] eqn:B; [|discriminate].
  injection H as <- H. apply app_eq_nil in H. destruct H as [-> ->].
  destruct I as [<-|I]; [|eapply IH; eauto]. unfold expand_group in A. destruct (dget "group" y) as [g|]; [|exists VNull; auto].
  destruct (must_be_id 16 g) eqn:M; try discriminate. exists g. left. split; auto.
  destruct g as [| | |[|c s]| |]; try discriminate; auto.
Qed.

(* Link initialization without an error: the links are the links of the specification that are not groups,
   followed by the links created from group members, with consecutive link indices. Group links are not
   among them, and neither is a group member with its own group attribute. *)
Theorem links_init_exact : forall start nodes links res, dwf links ->
  links_init start nodes links = (Some res, []) ->
  exists ls as_, links_of nodes "links" links ls /\
    Forall2 (group_links nodes) (filter is_group ls) as_ /\
    (forall x, In x ls -> is_group x = false -> dget "members" x = None) /\
    indexed start (filter (fun x => negb (is_group x)) (ls ++ concat as_)) res.
Proof.
  intros start nodes links res W H. unfold links_init in H.
  destruct (adjust_link_list links "links" nodes) as [ls e1] eqn:A.
  destruct (expand_groups nodes (set_linknames 0 ls)) as [[r|] e2] eqn:B; [|discriminate].
  injection H as <- H. apply app_eq_nil in H. destruct H as [-> ->].
  unfold expand_groups in B. destruct (expand_each nodes (set_linknames 0 ls)) as [[added|] e] eqn:C; [|discriminate].
  injection B as <- ->. pose proof (link_list_ok _ _ W _ _ _ A) as OK.
  destruct (expand_each_spec nodes (set_linknames 0 ls) added) as [M [as_ [F ->]]]; [|exact C|].
  - intros x I. split.
    + eapply set_linknames_named; eauto. eapply expand_each_truthy; eauto.
    + clear - OK I. revert I. generalize 0. induction OK as [|y l [_ Y] OK IH]; intros n I; [destruct I|].
      cbn [set_linknames] in I. destruct I as [<-|I]; [|eapply IH; eauto].
      intros v G. rewrite set_linkname_get in G by discriminate. auto.
  - exists ls, as_. split; [apply link_list_exact; auto|]. split; [eapply group_links_filter; eauto|]. split.
    + clear - M. revert M. generalize 0. induction ls as [|y ls IH]; intros n M x I G; [destruct I|].
      cbn [set_linknames] in M. destruct I as [<-|I].
      * rewrite <- (set_linkname_get n) by discriminate. apply M; [left; auto|]. rewrite set_linkname_group. auto.
      * eapply (IH (S n)); eauto. intros z Z1 Z2. apply M; [right; auto|auto].
    + replace (filter (fun x : dict val => negb (dmem "group" x)) (set_linknames 0 ls ++ concat as_))
        with (filter (fun x => negb (is_group x)) (ls ++ concat as_)); [apply index_spec|].
      rewrite !filter_app. f_equal. symmetry. exact (set_linknames_filter ls 0 OK).
Qed.

(* Link indices are consecutive, so every link has a different one. *)
Theorem linkindex_exact : forall start nodes links res e n l, links_init start nodes links = (Some res, e) ->
  nth_error res n = Some l -> dget "linkindex" l = Some (VInt (start + Z.of_nat n)).
Proof.
  intros start nodes links res e n l H N. unfold links_init in H.
  destruct (adjust_link_list links "links" nodes) as [ls e1].
  destruct (expand_groups nodes (set_linknames 0 ls)) as [[r|] e2]; [|discriminate]. injection H as <- _.
  eapply indexed_nth; [apply index_spec|exact N].
Qed.

(* Every member of a group without its own group attribute becomes a link: it has the interfaces and the
   name of the member and every attribute of the group that is not set in the member. *)
Theorem group_member_becomes_link : forall nodes g gid n ms xs, members_of nodes g gid n ms xs ->
  length xs = length ms /\
  forall i m, nth_error ms i = Some m -> exists r x, nth_error xs i = Some x /\
    link_of nodes ("links[" ++ gid ++ "][" ++ dec (n + i) ++ "]") m r /\
    is_group x = is_group r /\
    (forall k v, dget k r = Some v -> is_dict v = false -> dget k x = Some v) /\
    (forall k, dget k r = None -> dget k x = group_attr g k).
Proof.
  intros nodes g gid n ms xs H. induction H as [|n m r x ms xs LO ME MO [IH1 IH2]].
  - split; auto. intros [|i] m E; discriminate.
  - split; [cbn; congruence|]. intros [|i] m0 E; cbn [nth_error] in *.
    + injection E as <-. exists r, x. rewrite Nat.add_0_r. split; [auto|]. split; [auto|]. split; [|split].
      * unfold is_group, dmem. rewrite ME. unfold group_attr. destruct (in_dec string_dec "group" _) as [_|Q].
        -- destruct (dget "group" r); auto.
        -- exfalso. apply Q. cbn. auto.
      * intros k v G D. rewrite ME, G. destruct (group_attr g k); auto. cbn [mopt]. rewrite merge_scalar_r; auto.
      * intros k G. rewrite ME, G. destruct (group_attr g k); auto.
    + destruct (IH2 _ _ E) as [r' [x' Q]]. exists r', x'. rewrite Nat.add_succ_r. auto.
Qed.

(* A disabled link is removed, but a disabled member of a link group is not; a group within a group
   disappears together with its members, and nothing is reported. *)
Theorem group_members_refuted :
  (exists res, links_init 1 ["r1"; "r2"]
     (VList [VDict [("group", VStr "core"); ("members", VList [VDict [("r1", VNull); ("r2", VNull); ("disable", VBool true)]])]])
     = (Some res, []) /\ length res = 1 /\ Forall (fun l => dget "disable" l = Some (VBool true)) res) /\
  links_init 1 ["r1"; "r2"]
     (VList [VDict [("r1", VNull); ("r2", VNull); ("disable", VBool true)]]) = (Some [], []) /\
  links_init 1 ["r1"; "r2"]
     (VList [VDict [("group", VStr "core"); ("members", VList [
        VDict [("group", VStr "sub"); ("members", VList [VStr "r1-r2"])]])]]) = (Some [], []).
Proof.
  split; [|split; reflexivity]. eexists. split; [reflexivity|]. split; [reflexivity|]. repeat constructor.
Qed.

(* An exception is raised only when a member of a group is neither a dictionary, a list nor a string. *)
Theorem links_init_exception : forall start nodes links e, links_init start nodes links = (None, e) ->
  exists ln, In (ELinkType ln) e.
Proof.
  intros start nodes links e H. unfold links_init in H.
  destruct (adjust_link_list links "links" nodes) as [ls e1].
  destruct (expand_groups nodes (set_linknames 0 ls)) as [[r|] e2] eqn:B; [discriminate|]. injection H as <-.
  assert (K : exists ln, In (ELinkType ln) e2); [|destruct K as [ln K]; exists ln; apply in_or_app; auto].
  unfold expand_groups in B. destruct (expand_each nodes (set_linknames 0 ls)) as [[a|] e0] eqn:C; [discriminate|].
  injection B as <-. revert C. generalize (set_linknames 0 ls). clear.
  intros l. revert e0. induction l as [|x l IH]; intros e0 C; cbn [expand_each] in C; [discriminate|].
  assert (Q : forall gn gd ms idx e, expand_members nodes gn gd idx ms = (None, e) -> exists ln, In (ELinkType ln) e).
  { clear. intros gn gd. induction ms as [|m ms IH]; intros idx e H; cbn [expand_members] in H; [discriminate|].
    destruct (adjust_link_object m (linkname_of gn (S idx)) nodes) as [[r|] e1] eqn:A.
    - destruct (expand_members nodes gn gd (S idx) ms) as [[ls|] e2] eqn:B; [rewrite merge_dicts in H; discriminate|].
      injection H as <-. destruct (IH _ _ B) as [ln I]. exists ln. apply in_or_app. auto.
    - injection H as <-. destruct m as [| | |s|its|d]; cbn in A; try (injection A as <-; eexists; left; reflexivity).
      + destruct (split_link_string _ nodes (split "-" s)). discriminate.
      + destruct (adjust_interface_list _ nodes its). discriminate.
      + unfold adjust_link_object in A. destruct (dget "interfaces" d).
        * destruct (interfaces_list _ v) as [its e2]. destruct (adjust_interface_list _ nodes its). discriminate.
        * destruct (split_link_dict _ nodes d _ [] []) as [[a b] c]. discriminate. }
  destruct (expand_group nodes x) as [[a|] e1] eqn:A.
  - destruct (expand_each nodes l) as [[b|] e2] eqn:B; [discriminate|]. injection C as <-.
    destruct (IH _ eq_refl) as [ln I]. exists ln. apply in_or_app. auto.
  - injection C as <-. unfold expand_group in A. destruct (dget "group" x) as [g|]; [|discriminate].
    destruct (must_be_id 16 g); try discriminate. destruct (dget "members" x) as [[| | | |[|y ms]|]|]; try discriminate; eapply Q; exact A.
Qed.

Example links_init_example :
  exists res, links_init 5 ["r1"; "r2"; "r3"]
    (VDict [("a", VList [VStr "r1-r2"; VDict [("group", VStr "core"); ("cost", VInt 22); ("role", VStr "x");
                                              ("members", VList [VStr "r2-r3"; VDict [("r1", VNull); ("cost", VInt 42)]])]]);
            ("b", VStr "r3-r1")]) = (Some res, []) /\
  map link_name res = ["links.a[1]"; "links.b"; "links[core][1]"; "links[core][2]"] /\
  map (fun l => dget "cost" l) res = [None; None; Some (VInt 22); Some (VInt 42)] /\
  map (fun l => dget "linkindex" l) res = map (fun z => Some (VInt z)) [5; 6; 7; 8]%Z.
Proof. eexists. split; [reflexivity|]. repeat split; reflexivity. Qed.

Print Assumptions link_list_exact.
Print Assumptions links_init_exact.
Print Assumptions linkindex_exact.
Print Assumptions group_member_becomes_link.
Print Assumptions group_members_refuted.
Print Assumptions links_init_exception.
