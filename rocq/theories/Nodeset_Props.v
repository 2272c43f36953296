(* Properties of node sets: C55. *)
From Coq Require Import String Ascii Bool List.
From Verif Require Import Base Text_Model Groups_Model Groups_Props Nodeset_Model.
Import ListNotations.

Section Props.
Variable fnmatch : string -> string -> bool.
Variable t : topo.
Variable names : list string.

(* Nodes selected by an element: glob pattern, then group name, then node name *)
Definition glob_chars : list ascii := ["*"%char; "?"%char; "["%char].
Fixpoint chars_of (s : string) : list ascii := match s with EmptyString => [] | String c r => c :: chars_of r end.
Definition is_pattern (s : string) : Prop := exists c, In c (chars_of s) /\ In c glob_chars.

Inductive selects (e : string) (n : string) : Prop :=
| sel_glob : is_pattern e -> In n names -> fnmatch n e = true -> selects e n
| sel_group : ~ is_pattern e -> dget e (t_groups t) <> None -> reaches t "node" e n -> selects e n
| sel_name : ~ is_pattern e -> dget e (t_groups t) = None -> In n names -> n = e -> selects e n.

(* The elements that are reported *)
Inductive bad (e : string) : Prop :=
| bad_glob : is_pattern e -> (forall n, In n names -> fnmatch n e = false) -> bad e
| bad_group : ~ is_pattern e -> dget e (t_groups t) <> None -> (forall ms, group_members t "node" e <> Ok ms) -> bad e
| bad_name : ~ is_pattern e -> dget e (t_groups t) = None -> ~ In e names -> bad e.

Lemma has_char_spec : forall c s, has_char c s = true <-> In c (chars_of s).
Proof.
  intros c. induction s as [|x s IH]; cbn [has_char chars_of In]; [split; [discriminate|intros []]|].
  rewrite orb_true_iff, IH. split; intros [H|H]; auto.
  - left. apply Ascii.eqb_eq. auto.
  - left. subst. apply Ascii.eqb_refl.
Qed.

Lemma is_glob_spec : forall s, is_glob s = true <-> is_pattern s.
Proof.
  intros s. unfold is_glob, is_pattern, glob_chars. rewrite !orb_true_iff, !has_char_spec. split.
  - intros [[H|H]|H]; eexists; (split; [exact H|cbn; auto]).
  - intros [c [H1 H2]]. cbn in H2. destruct H2 as [<-|[<-|[<-|[]]]]; auto.
Qed.

Lemma add_glob_spec : forall glob ns l c res, add_glob fnmatch glob ns l = (c, res) ->
  (c = 0 <-> forall n, In n ns -> fnmatch n glob = false)
  /\ (forall n, In n res <-> In n l \/ (In n ns /\ fnmatch n glob = true))
  /\ (NoDup l -> NoDup res) /\ exists x, res = l ++ x.
Proof.
  intros glob. induction ns as [|n ns IH]; intros l c res H; cbn [add_glob] in H.
  - injection H as <- <-. split; [split; auto; intros _ n []|]. split; [intros n; cbn [In]; tauto|]. split; auto. exists []. symmetry. apply app_nil_r.
  - destruct (fnmatch n glob) eqn:F.
    + destruct (add_glob fnmatch glob ns (if memS n l then l else l ++ [n])) as [c' res'] eqn:E. injection H as <- <-.
      destruct (IH _ _ _ E) as [_ [I2 [I3 [x I4]]]]. split; [|split; [|split]].
      * split; [discriminate|]. intros C. rewrite (C n (or_introl eq_refl)) in F. discriminate.
      * intros m. rewrite I2. cbn [In]. destruct (memS n l) eqn:M.
        -- apply memS_true in M. split; [tauto|]. intros [H|[[<-|H] H']]; auto.
        -- rewrite in_app_iff. cbn [In]. split.
           ++ intros [[H|[<-|[]]]|H]; auto. tauto.
           ++ intros [H|[[<-|H] H']]; auto.
      * intros ND. apply I3. destruct (memS n l) eqn:M; auto. apply memS_false in M. apply NoDup_app_intro; auto; [repeat constructor; intros []|].
        intros y Hy [<-|[]]. auto.
      * destruct (memS n l); [eauto|]. rewrite <- app_assoc in I4. eauto.
    + destruct (IH _ _ _ H) as [I1 [I2 [I3 I4]]]. split; [|split; [|split]]; auto.
      * rewrite I1. split; [intros C m [<-|Hm]; auto|]. intros C m Hm. apply C. right. auto.
      * intros m. rewrite I2. cbn [In]. split; [tauto|]. intros [H0|[[<-|H0] H']]; auto. congruence.
Qed.

Lemma add_element_spec : forall e l l' errs, add_element fnmatch t names e l = (l', errs) ->
  (errs <> [] <-> bad e) /\ (errs = [] -> forall n, In n l' <-> In n l \/ selects e n)
  /\ ((forall ms, group_members t "node" e = Ok ms -> NoDup ms) -> NoDup l -> NoDup l') /\ (exists x, l' = l ++ x).
Proof.
  intros e l l' errs H. unfold add_element in H. destruct (is_glob e) eqn:G.
  - apply is_glob_spec in G. destruct (add_glob fnmatch e names l) as [c res] eqn:A.
    destruct (add_glob_spec _ _ _ _ _ A) as [S1 [S2 [S3 S4]]]. destruct c as [|c].
    + injection H as <- <-. split; [|split; [discriminate|split; [auto|]]].
      * split; [intros _|discriminate]. apply bad_glob; auto. apply S1. auto.
      * exists []. symmetry. apply app_nil_r.
    + injection H as <- <-. split; [|split; [|split; [auto|auto]]].
      * split; [congruence|]. intros B. exfalso. inversion B; try contradiction. assert (S c = 0) by (apply S1; auto). discriminate.
      * intros _ n. rewrite S2. split; intros [H|H]; auto.
        -- right. apply sel_glob; tauto.
        -- inversion H; try contradiction. auto.
  - assert (NG : ~ is_pattern e) by (rewrite <- is_glob_spec; congruence).
    unfold dmem in H. destruct (dget e (t_groups t)) as [gd|] eqn:D.
    + destruct (group_members t "node" e) as [ms|er] eqn:M.
      * injection H as <- <-. split; [|split; [|split]].
        -- split; [congruence|]. intros B. exfalso. inversion B; try contradiction; congruence.
        -- intros _ n. rewrite in_app_iff, filter_In, negb_true_iff, memS_false. split.
           ++ intros [H|[H _]]; auto. right. apply sel_group; auto; [congruence|]. apply (group_members_exact _ _ _ _ M). auto.
           ++ intros [H|H]; auto. destruct (in_dec string_dec n l) as [I|I]; auto. right. inversion H; try contradiction; try congruence.
              split; auto. apply (group_members_exact _ _ _ _ M). auto.
        -- intros ND NDl. apply NoDup_app_intro; auto; [apply NoDup_filter; auto|].
           intros x Hx Hy. apply filter_In in Hy. destruct Hy as [_ Hy]. apply negb_true_iff, memS_false in Hy. auto.
        -- eauto.
      * injection H as <- <-. split; [|split; [discriminate|split; [auto|]]].
        -- split; [intros _|discriminate]. apply bad_group; auto; congruence.
        -- exists []. symmetry. apply app_nil_r.
    + destruct (memS e names) eqn:Mn; cbn [negb] in H.
      * apply memS_true in Mn. assert (B0 : bad e -> False) by (intros B; inversion B; try contradiction; congruence).
        destruct (memS e l) eqn:Ml; cbn [negb] in H; injection H as <- <-.
        -- apply memS_true in Ml. split; [split; [congruence|intros B; destruct (B0 B)]|]. split; [|split; [auto|exists []; symmetry; apply app_nil_r]].
           intros _ n. split; auto. intros [H|H]; auto. inversion H; try contradiction; try congruence.
        -- apply memS_false in Ml. split; [split; [congruence|intros B; destruct (B0 B)]|]. split; [|split; [|eauto]].
           ++ intros _ n. rewrite in_app_iff. cbn [In]. split.
              ** intros [H|[<-|[]]]; auto. right. apply sel_name; auto.
              ** intros [H|H]; auto. inversion H; try contradiction; try congruence. auto.
           ++ intros _ ND. apply NoDup_app_intro; auto; [repeat constructor; intros []|]. intros x Hx [<-|[]]. auto.
      * apply memS_false in Mn. injection H as <- <-. split; [|split; [discriminate|split; [auto|exists []; symmetry; apply app_nil_r]]].
        split; [intros _|discriminate]. apply bad_name; auto.
Qed.

Lemma add_elements_spec : forall es l l' errs, add_elements fnmatch t names es l = (l', errs) ->
  (errs = [] <-> forall e, In e es -> ~ bad e)
  /\ (errs = [] -> forall n, In n l' <-> In n l \/ exists e, In e es /\ selects e n)
  /\ ((forall e ms, In e es -> group_members t "node" e = Ok ms -> NoDup ms) -> NoDup l -> NoDup l')
  /\ (exists x, l' = l ++ x).
Proof.
  induction es as [|e es IH]; intros l l' errs H; cbn [add_elements] in H.
  - injection H as <- <-. split; [split; auto; intros _ e []|]. split; [|split; [auto|exists []; symmetry; apply app_nil_r]].
    intros _ n. split; auto. intros [H|[e [[] _]]]. auto.
  - destruct (add_element fnmatch t names e l) as [l1 e1] eqn:A. destruct (add_elements fnmatch t names es l1) as [l2 e2] eqn:B.
    injection H as <- <-. destruct (add_element_spec _ _ _ _ A) as [A1 [A2 [A3 [x A4]]]]. destruct (IH _ _ _ B) as [B1 [B2 [B3 [y B4]]]].
    split; [|split; [|split]].
    + split.
      * intros E. apply app_eq_nil in E. destruct E as [E1 E2]. intros a [<-|Ha]; [|apply B1; auto]. rewrite <- A1. congruence.
      * intros N. assert (e1 = []) as -> by (destruct e1; auto; exfalso; apply (N e (or_introl eq_refl)); apply A1; discriminate).
        apply B1. intros a Ha. apply N. right. auto.
    + intros E n. apply app_eq_nil in E. destruct E as [E1 E2]. rewrite (B2 E2 n), (A2 E1 n). split.
      * intros [[H|H]|[a [Ha H]]]; auto; right; [exists e; split; [left; auto|auto]|exists a; split; [right; auto|auto]].
      * intros [H|[a [[<-|Ha] H]]]; auto. right. eauto.
    + intros G ND. apply B3; [intros a ms Ha; apply G; right; auto|]. apply A3; auto. intros ms. apply G. left. auto.
    + subst. rewrite <- app_assoc. eauto.
Qed.

(* A node set expands to exactly the nodes selected by its elements; elements that select nothing are reported. *)
Theorem nodeset_exact : forall ns,
  match parse_nodeset fnmatch t names ns with
  | Ok l => (forall e, In e (split "," ns) -> ~ bad e) /\ (forall n, In n l <-> exists e, In e (split "," ns) /\ selects e n)
  | Err errs => errs <> [] /\ exists e, In e (split "," ns) /\ bad e
  end.
Proof.
  intros ns. unfold parse_nodeset. destruct (add_elements fnmatch t names (split "," ns) []) as [l errs] eqn:E.
  destruct (add_elements_spec _ _ _ _ E) as [S1 [S2 _]]. destruct errs as [|er errs].
  - split; [apply S1; auto|]. intros n. rewrite (S2 eq_refl n). cbn [In]. split; [intros [[]|H]; auto|auto].
  - split; [discriminate|]. clear S2.
    destruct (add_elements fnmatch t names (split "," ns) []) as [l0 e0] eqn:E0. injection E as -> ->.
    assert (X : forall es l l' errs, add_elements fnmatch t names es l = (l', errs) -> errs <> [] -> exists e, In e es /\ bad e).
    { induction es as [|e es IH]; intros l1 l2 errs1 H N; cbn [add_elements] in H; [injection H as <- <-; congruence|].
      destruct (add_element fnmatch t names e l1) as [l3 e3] eqn:A. destruct (add_elements fnmatch t names es l3) as [l4 e4] eqn:B.
      injection H as <- <-. destruct e3 as [|z e3].
      - destruct (IH _ _ _ B N) as [a [Ha Hb]]. exists a. split; [right; auto|auto].
      - exists e. split; [left; auto|]. apply (proj1 (add_element_spec _ _ _ _ A)). discriminate. }
    apply (X _ _ _ _ E0). discriminate.
Qed.

(* The result has no duplicates when the members of the groups used in it have no duplicates. *)
Theorem nodeset_unique : forall ns l, parse_nodeset fnmatch t names ns = Ok l ->
  (forall e ms, In e (split "," ns) -> group_members t "node" e = Ok ms -> NoDup ms) -> NoDup l.
Proof.
  intros ns l H G. unfold parse_nodeset in H. destruct (add_elements fnmatch t names (split "," ns) []) as [l0 errs] eqn:E.
  destruct (add_elements_spec _ _ _ _ E) as [_ [_ [S3 _]]]. destruct errs; [|discriminate]. injection H as <-. apply S3; auto. constructor.
Qed.

(* The order of elements is preserved: a prefix of the element list yields a prefix of the result. *)
Theorem nodeset_order : forall es1 es2 l1 l2 e1 e2, add_elements fnmatch t names es1 [] = (l1, e1) ->
  add_elements fnmatch t names (es1 ++ es2) [] = (l2, e2) -> exists x, l2 = l1 ++ x.
Proof.
  intros es1 es2. generalize (@nil string). induction es1 as [|e es1 IH]; intros l0 l1 l2 e1 e2 H1 H2; cbn [app add_elements] in *.
  - injection H1 as <- <-. destruct (add_elements_spec _ _ _ _ H2) as [_ [_ [_ X]]]. auto.
  - destruct (add_element fnmatch t names e l0) as [la ea]. destruct (add_elements fnmatch t names es1 la) as [lb eb] eqn:B.
    destruct (add_elements fnmatch t names (es1 ++ es2) la) as [lc ec] eqn:C. injection H1 as <- <-. injection H2 as <- <-. eauto.
Qed.
End Props.

(* The pruned topology has exactly the selected nodes, with unchanged data. *)
Theorem pruned_nodes : forall (A : Type) (nodes : dict A) l k v, In (k, v) (get_nodeset nodes l) <-> In (k, v) nodes /\ In k l.
Proof. intros A nodes l k v. unfold get_nodeset. rewrite filter_In, memS_true. tauto. Qed.

Definition simple_match (name pattern : string) : bool := String.prefix "r" name && String.eqb pattern "r*".
Definition ns_group (ms : list string) : gdata := mk_gdata ms "node" None None None None.
Definition ns_topo : topo := mk_topo [("g", ns_group ["r2"; "h"; "s"]); ("s", ns_group ["h"])]%string (fun _ => ["r1"; "r2"; "h"; "x"]%string).

Example nodeset_case :
  parse_nodeset simple_match ns_topo ["r1"; "r2"; "h"; "x"]%string "x,r*,x" = Ok ["x"; "r1"; "r2"]%string
  /\ parse_nodeset simple_match ns_topo ["r1"; "r2"; "h"; "x"]%string "s,x,s,q,z*" = Err [BadName "q"; NoMatch "z*"]%string
  /\ parse_nodeset simple_match ns_topo ["r1"; "r2"; "h"; "x"]%string "r2,s" = Ok ["r2"; "h"]%string.
Proof. repeat split; reflexivity. Qed.

(* A node that is a member of a group directly and through a nested group is listed twice. *)
Theorem nodeset_unique_refuted : exists l, parse_nodeset simple_match ns_topo ["r1"; "r2"; "h"; "x"]%string "g" = Ok l /\ ~ NoDup l.
Proof.
  exists ["r2"; "h"; "h"]%string. split; [reflexivity|]. intros N. inversion N as [|? ? _ N1]; subst. inversion N1 as [|? ? C _]; subst. apply C. left. auto.
Qed.

Print Assumptions nodeset_exact.
Print Assumptions nodeset_unique.
Print Assumptions nodeset_order.
Print Assumptions pruned_nodes.
Print Assumptions nodeset_unique_refuted.
