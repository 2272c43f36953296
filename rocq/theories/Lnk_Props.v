(* Property C117: link and interface shortcuts become interface lists without a silent loss. *)
From Coq Require Import String Ascii ZArith Lia Bool List.
From Verif Require Import Base Box_Model Box_Props Dev_Model Text_Model Text_Props Types_Model Types_Props
  Intf_Model Lnk_Model.
Import ListNotations.
Local Open Scope string_scope.
Local Open Scope list_scope.
Local Open Scope nat_scope.

(* ---------- what the links should be ---------- *)

(* an entry of an interface list and the resulting interface: a node name, or interface data with the
   name of a known node *)
Inductive accepts (nodes : list string) : val -> dict val -> Prop :=
| acc_name : forall n, In n nodes -> accepts nodes (VStr n) [("node", VStr n)]
| acc_data : forall d n, dget "node" d = Some (VStr n) -> In n nodes -> accepts nodes (VDict d) d.

(* the results of the acceptable elements, in the same order *)
Inductive sieve {A B} (R : A -> B -> Prop) : list A -> list B -> Prop :=
| sv_nil : sieve R [] []
| sv_keep : forall a b l m, R a b -> sieve R l m -> sieve R (a :: l) (b :: m)
| sv_drop : forall a l m, (forall b, ~ R a b) -> sieve R l m -> sieve R (a :: l) m.

(* the parts of a link string *)
Inductive dashed : string -> list string -> Prop :=
| d_one : forall s, no_char "-" s -> dashed s [s]
| d_more : forall h r t, no_char "-" h -> dashed r t -> dashed (h ++ String "-" r) (h :: t).

Definition blank (c : ascii) : Prop := 9 <= nat_of_ascii c <= 13 \/ 28 <= nat_of_ascii c <= 32.
Definition blanks (s : string) : Prop := forall c, In c (list_ascii_of_string s) -> blank c.

(* [n] is [p] without the leading and trailing blanks *)
Definition trimmed (p n : string) : Prop :=
  (exists a b, p = (a ++ n ++ b)%string /\ blanks a /\ blanks b) /\
  (forall c r, n = String c r -> ~ blank c) /\
  (forall c r, n = (r ++ String c "")%string -> ~ blank c).

(* the name starts with the name of a node *)
Definition starts_with_node (nodes : list string) (n : string) : Prop :=
  exists x y, In x nodes /\ n = (x ++ y)%string.

Definition string_interface (nodes : list string) (p : string) (i : dict val) : Prop :=
  exists n, trimmed p n /\ starts_with_node nodes n /\ i = [("node", VStr n)].

(* node data within a link dictionary *)
Definition node_interface (kv : string * val) (i : dict val) : Prop :=
  dget "node" i = Some (VStr (fst kv)) /\
  (snd kv = VNull /\ (forall a, a <> "node" -> dget a i = None) \/
   exists nd, snd kv = VDict nd /\ forall a, a <> "node" -> dget a i = dget a nd).

Definition interfaces_are (d : link) (ifs : list (dict val)) : Prop :=
  dget "interfaces" d = Some (VList (map VDict ifs)).

(* the value of the interfaces attribute and the entries it stands for *)
Inductive intf_entries : val -> list val -> Prop :=
| ie_list : forall l, intf_entries (VList l) l
| ie_none : intf_entries VNull []
| ie_str : forall s, intf_entries (VStr s) [VStr s]
| ie_int : forall z, intf_entries (VInt z) [VInt z]
| ie_bool : forall b, intf_entries (VBool b) [VBool b].

(* a link specification and the link: its name, interfaces and attributes *)
Inductive link_of (nodes : list string) (ln : string) : val -> link -> Prop :=
| lo_intf : forall d v items ifs r,
    dget "interfaces" d = Some v -> intf_entries v items -> Forall2 (accepts nodes) items ifs ->
    interfaces_are r ifs -> dget "_linkname" r = Some (VStr ln) ->
    (forall k, k <> "interfaces" -> k <> "_linkname" -> dget k r = dget k d) ->
    link_of nodes ln (VDict d) r
| lo_nodes : forall d ifs r,
    dget "interfaces" d = None ->
    Forall2 node_interface (filter (fun kv => if in_dec string_dec (fst kv) nodes then true else false) d) ifs ->
    interfaces_are r ifs ->
    (dget "_linkname" d = None -> dget "_linkname" r = Some (VStr ln)) ->
    (forall k, k <> "interfaces" -> k <> "_linkname" -> ~ In k nodes -> dget k r = dget k d) ->
    (forall k, k <> "interfaces" -> k <> "_linkname" -> In k nodes -> dget k r = None) ->
    link_of nodes ln (VDict d) r
| lo_list : forall items ifs r,
    Forall2 (accepts nodes) items ifs ->
    interfaces_are r ifs -> dget "_linkname" r = Some (VStr ln) ->
    (forall k, k <> "interfaces" -> k <> "_linkname" -> dget k r = None) ->
    link_of nodes ln (VList items) r
| lo_string : forall s ps ifs r,
    dashed s ps -> Forall2 (string_interface nodes) ps ifs ->
    interfaces_are r ifs -> dget "_linkname" r = Some (VStr ln) ->
    (forall k, k <> "interfaces" -> k <> "_linkname" -> dget k r = None) ->
    link_of nodes ln (VStr s) r.

(* ---------- interface lists ---------- *)

Lemma adjust_interface_inl : forall ln nodes n d, adjust_interface ln nodes n = inl d <-> accepts nodes n d.
Proof.
  intros ln nodes n d. unfold adjust_interface. split.
  - intros H. destruct n as [| | |s| |nd]; try discriminate.
    + destruct (memS s nodes) eqn:M; [|discriminate]. apply memS_true in M. injection H as <-. constructor; auto.
    + destruct (dget "node" nd) as [[| | |s| |]|] eqn:G; try discriminate.
      destruct (memS s nodes) eqn:M; [|discriminate]. apply memS_true in M. injection H as <-. econstructor; eauto.
  - intros H. destruct H as [n I|d n G I]; apply memS_true in I.
    + rewrite I. auto.
    + rewrite G, I. auto.
Qed.

Lemma adjust_list_sieve : forall ln nodes l ifs errs, adjust_interface_list ln nodes l = (ifs, errs) ->
  sieve (accepts nodes) l ifs /\ length ifs + length errs = length l.
Proof.
  intros ln nodes. induction l as [|n l IH]; intros ifs errs H; cbn [adjust_interface_list] in H.
  - injection H as <- <-. split; [constructor|auto].
  - destruct (adjust_interface_list ln nodes l) as [i1 e1] eqn:E. destruct (IH _ _ eq_refl) as [S L].
    destruct (adjust_interface ln nodes n) as [d|e] eqn:A; injection H as <- <-.
    + split; [|cbn; lia]. constructor; auto. apply (adjust_interface_inl ln). auto.
    + split; [|cbn; lia]. constructor; auto. intros b K. apply (adjust_interface_inl ln) in K. congruence.
Qed.

(* Every acceptable entry of an interface list becomes one interface, in the order of the list, and every
   other entry is reported. *)
Theorem interface_list_exact : forall ln nodes l ifs errs, adjust_interface_list ln nodes l = (ifs, errs) ->
  sieve (accepts nodes) l ifs /\ length ifs + length errs = length l /\
  (forall d, In d ifs -> exists n, dget "node" d = Some (VStr n) /\ In n nodes).
Proof.
  intros ln nodes l ifs errs H. destruct (adjust_list_sieve _ _ _ _ _ H) as [S L].
  split; [exact S|split; [exact L|]].
  clear H L. induction S as [|a b l m R S IH|a l m R S IH]; intros d I; [destruct I| |auto].
  destruct I as [<-|I]; [|auto]. destruct R as [n I|d n G I]; exists n; auto.
Qed.

Lemma sieve_full : forall A B (R : A -> B -> Prop) l m, sieve R l m -> length m = length l -> Forall2 R l m.
Proof.
  intros A B R l m S. assert (L : forall l m, sieve R l m -> length m <= length l).
  { intros l0 m0 S0. induction S0; cbn; lia. }
  induction S as [|a b l m H S IH|a l m H S IH]; intros E; cbn in E.
  - constructor.
  - constructor; auto.
  - apply L in S. lia.
Qed.

Lemma adjust_list_ok : forall ln nodes l ifs, adjust_interface_list ln nodes l = (ifs, []) -> Forall2 (accepts nodes) l ifs.
Proof.
  intros ln nodes l ifs H. destruct (adjust_list_sieve _ _ _ _ _ H) as [S L]. cbn in L. apply sieve_full; auto. lia.
Qed.

Lemma adjust_list_complete : forall ln nodes l ifs, Forall2 (accepts nodes) l ifs ->
  adjust_interface_list ln nodes l = (ifs, []).
Proof.
  intros ln nodes l ifs H. induction H as [|a b l m R F IH]; auto. cbn [adjust_interface_list]. rewrite IH.
  apply (adjust_interface_inl ln) in R. rewrite R. auto.
Qed.

(* ---------- link strings ---------- *)

Lemma split_dashed : forall l s, split "-" s = l <-> dashed s l.
Proof.
  induction l as [|h t IH]; intros s; split.
  - intros H. destruct (split_inv "-" s) as [h [t [E _]]]. congruence.
  - intros H. inversion H.
  - intros H. destruct (split_inv "-" s) as [h' [t' [E [N [S R]]]]]. rewrite E in H. injection H as -> ->.
    destruct t as [|x t].
    + rewrite S by auto. constructor; auto.
    + destruct R as [r [-> R]]. constructor; auto. apply IH. auto.
  - intros H. inversion H; subst.
    + apply split_none. auto.
    + rewrite split_app by auto. f_equal. apply IH. auto.
Qed.

Lemma is_space_blank : forall c, is_space c = true <-> blank c.
Proof.
  intros c. assert (E : is_space c = (((9 <=? nat_of_ascii c) && (nat_of_ascii c <=? 13)) ||
                                     ((28 <=? nat_of_ascii c) && (nat_of_ascii c <=? 32)))%bool).
  { destruct c as [[] [] [] [] [] [] [] []]; reflexivity. }
  rewrite E, orb_true_iff, !andb_true_iff, !Nat.leb_le. unfold blank. tauto.
Qed.

Lemma lstrip_spec : forall s, exists a, s = (a ++ lstrip is_space s)%string /\ blanks a /\
  (forall c r, lstrip is_space s = String c r -> ~ blank c).
Proof.
  induction s as [|c s IH].
  - exists "". repeat split; [intros c []|discriminate].
  - cbn [lstrip]. destruct (is_space c) eqn:E.
    + destruct IH as [a [H1 [H2 H3]]]. exists (String c a). split; [cbn; congruence|]. split; [|auto].
      intros x [<-|I]; [apply is_space_blank; auto|auto].
    + exists "". split; [reflexivity|]. split; [intros x []|]. intros x r H. injection H as <- _.
      rewrite <- is_space_blank. congruence.
Qed.

Lemma rstrip_spec : forall s, exists b, s = (rstrip is_space s ++ b)%string /\ blanks b /\
  (forall c r, rstrip is_space s = (r ++ String c "")%string -> ~ blank c) /\
  (forall c r, rstrip is_space s = String c r -> exists r', s = String c r').
Proof.
  induction s as [|c s IH].
  - exists "". repeat split; [intros c []| |discriminate]. intros c [|x r]; discriminate.
  - destruct IH as [b [H1 [H2 [H3 H4]]]]. cbn [rstrip]. destruct (rstrip is_space s) as [|x t] eqn:R.
    + destruct (is_space c) eqn:E.
      * exists (String c b). split; [cbn in *; congruence|]. split; [|split; [intros y [|z r]; discriminate|discriminate]].
        intros x [<-|I]; [apply is_space_blank; auto|auto].
      * exists b. split; [cbn in *; congruence|]. split; [auto|]. split.
        -- intros y [|z r] H; cbn in H; [injection H as <-; rewrite <- is_space_blank; congruence|].
           injection H as _ H. destruct r; discriminate.
        -- intros y r H. injection H as <- _. eauto.
    + exists b. split; [cbn [append]; f_equal; exact H1|]. split; [auto|]. split.
      * intros y [|z r] H; cbn in H; [discriminate|]. injection H as _ H. eapply H3; eauto.
      * intros y r H. injection H as <- _. eauto.
Qed.

Lemma strip_trimmed : forall p, trimmed p (strip p).
Proof.
  intros p. unfold strip. destruct (lstrip_spec p) as [a [A1 [A2 A3]]].
  destruct (rstrip_spec (lstrip is_space p)) as [b [B1 [B2 [B3 B4]]]]. split; [|split].
  - exists a, b. split; [|auto]. rewrite <- B1. exact A1.
  - intros c r H. destruct (B4 _ _ H) as [r' E]. eapply A3; eauto.
  - exact B3.
Qed.

Lemma app_eq_app_str : forall a b c d, (a ++ b)%string = (c ++ d)%string ->
  exists l, (a = (c ++ l)%string /\ d = (l ++ b)%string) \/ (c = (a ++ l)%string /\ b = (l ++ d)%string).
Proof.
  induction a as [|x a IH]; intros b c d H; cbn in H.
  - exists c. right. auto.
  - destruct c as [|y c]; cbn in H.
    + exists (String x a). left. auto.
    + injection H as <- H. destruct (IH _ _ _ H) as [l [[E1 E2]|[E1 E2]]]; exists l; [left|right]; split; auto; cbn; congruence.
Qed.

Lemma blanks_app : forall a b, blanks (a ++ b) <-> blanks a /\ blanks b.
Proof.
  intros a b. unfold blanks.
  assert (E : list_ascii_of_string (a ++ b) = list_ascii_of_string a ++ list_ascii_of_string b).
  { induction a as [|c a IH]; cbn; [auto|]. f_equal. auto. }
  rewrite E. split.
  - intros H. split; intros c I; apply H; apply in_or_app; auto.
  - intros [H1 H2] c I. apply in_app_or in I. destruct I; auto.
Qed.

Lemma app_assoc_str : forall a b c, ((a ++ b) ++ c)%string = (a ++ b ++ c)%string.
Proof. induction a as [|x a IH]; intros b c; cbn; [auto|]. f_equal. auto. Qed.

Lemma app_nil_str : forall a, (a ++ "")%string = a.
Proof. induction a as [|x a IH]; cbn; [auto|]. f_equal. auto. Qed.

Lemma str_last : forall s, s = "" \/ exists r c, s = (r ++ String c "")%string.
Proof.
  induction s as [|x s IH]; [auto|]. right. destruct IH as [->|[r [c ->]]].
  - exists "", x. auto.
  - exists (String x r), c. auto.
Qed.

Lemma trimmed_ends : forall n, (forall c r, n = String c r -> ~ blank c) -> (forall c r, n = (r ++ String c "")%string -> ~ blank c) ->
  forall a b, blanks a -> blanks b -> strip (a ++ n ++ b) = n.
Proof.
  intros n F L a b A B. unfold strip.
  assert (E1 : forall a s, blanks a -> lstrip is_space (a ++ s) = lstrip is_space s).
  { induction a0 as [|c a0 IH]; intros s H; cbn; auto. assert (S : is_space c = true) by (apply is_space_blank; apply H; left; auto).
    rewrite S. apply IH. intros x I. apply H. right. auto. }
  rewrite E1 by auto. assert (E2 : forall b, blanks b -> rstrip is_space b = "").
  { induction b0 as [|c b0 IH]; intros H; cbn; auto. rewrite IH by (intros x I; apply H; right; auto).
    assert (S : is_space c = true) by (apply is_space_blank; apply H; left; auto). rewrite S. auto. }
  assert (E3 : forall n b, blanks b -> (forall c r, n = (r ++ String c "")%string -> ~ blank c) -> rstrip is_space (n ++ b) = n).
  { induction n0 as [|c m IH]; intros b0 B0 K; cbn [append]; [auto|]. cbn [rstrip].
    destruct m as [|d m].
    - cbn [append]. rewrite E2 by auto. assert (S : is_space c = false).
      { destruct (is_space c) eqn:S; auto. apply is_space_blank in S. exfalso. apply (K c ""); auto. }
      rewrite S. auto.
    - rewrite IH; auto. intros x r H. apply (K x (String c r)). cbn. congruence. }
  destruct n as [|c n].
  - cbn [append]. assert (E4 : lstrip is_space b = "").
    { rewrite <- (app_nil_str b), E1; auto. }
    rewrite E4. auto.
  - assert (S : is_space c = false).
    { destruct (is_space c) eqn:S; auto. apply is_space_blank in S. exfalso. apply (F c n); auto. }
    change ((String c n ++ b)%string) with (String c (n ++ b)). cbn [lstrip]. rewrite S.
    change (String c (n ++ b)) with ((String c n ++ b)%string). apply E3; auto.
Qed.

Lemma trimmed_strip : forall p n, trimmed p n <-> n = strip p.
Proof.
  intros p n. split.
  - intros [[a [b [-> [A B]]]] [F L]]. symmetry. apply trimmed_ends; auto.
  - intros ->. apply strip_trimmed.
Qed.

Lemma prefix_app : forall x n, prefix x n = true <-> exists y, n = (x ++ y)%string.
Proof.
  induction x as [|c x IH]; intros n.
  - split; [intros _; exists n; auto|]. intros _. destruct n; auto.
  - destruct n as [|d n]; [split; [discriminate|intros [y H]; discriminate]|]. cbn [prefix append].
    destruct (ascii_dec c d) as [<-|N].
    + rewrite IH. split; intros [y H]; exists y; [congruence|injection H as H; auto].
    + split; [discriminate|]. intros [y H]. injection H as H _. congruence.
Qed.

Lemma string_node_ok_spec : forall nodes n, string_node_ok nodes n = true <-> starts_with_node nodes n.
Proof.
  intros nodes n. unfold string_node_ok, starts_with_node. rewrite orb_true_iff, memS_true, existsb_exists. split.
  - intros [I|[x [I P]]].
    + exists n, "". rewrite app_nil_str. auto.
    + apply prefix_app in P. destruct P as [y ->]. eauto.
  - intros [x [y [I ->]]]. right. exists x. split; auto. apply prefix_app. eauto.
Qed.

Lemma split_string_ok : forall ln nodes ps ifs errs, split_link_string ln nodes ps = (ifs, errs) ->
  sieve (string_interface nodes) ps ifs /\ length ifs + length errs = length ps.
Proof.
  intros ln nodes. induction ps as [|p ps IH]; intros ifs errs H; cbn [split_link_string] in H.
  - injection H as <- <-. split; [constructor|auto].
  - cbv zeta in H. destruct (split_link_string ln nodes ps) as [i e]. destruct (IH _ _ eq_refl) as [S L].
    destruct (string_node_ok nodes (strip p)) eqn:K; injection H as <- <-.
    + split; [|cbn; lia]. constructor; auto. exists (strip p). split; [apply strip_trimmed|].
      split; [apply string_node_ok_spec; auto|auto].
    + split; [|cbn; lia]. constructor; auto. intros b [n [T [W _]]]. apply trimmed_strip in T. subst n.
      apply string_node_ok_spec in W. congruence.
Qed.

Lemma split_string_complete : forall ln nodes ps ifs, Forall2 (string_interface nodes) ps ifs ->
  split_link_string ln nodes ps = (ifs, []).
Proof.
  intros ln nodes ps ifs F. induction F as [|p i ps ifs [n [T [W ->]]] F IH]; auto.
  cbn [split_link_string]. rewrite IH. apply trimmed_strip in T. subst n.
  apply string_node_ok_spec in W. rewrite W. auto.
Qed.

(* ---------- link dictionaries ---------- *)

Definition node_key (nodes : list string) (kv : string * val) : bool :=
  if in_dec string_dec (fst kv) nodes then true else false.

Lemma node_key_mem : forall nodes kv, node_key nodes kv = memS (fst kv) nodes.
Proof.
  intros nodes kv. unfold node_key. destruct (in_dec string_dec (fst kv) nodes) as [I|I].
  - symmetry. apply memS_true. auto.
  - symmetry. apply memS_false. auto.
Qed.

Lemma split_dict_spec : forall ln nodes d attrs ifs errs attrs' ifs' errs', NoDup (dkeys d) ->
  split_link_dict ln nodes d attrs ifs errs = (attrs', ifs', errs') ->
  (forall k, ~ In k nodes -> In k (dkeys d) -> dget k attrs' = dget k d) /\
  (forall k, In k nodes \/ ~ In k (dkeys d) -> dget k attrs' = dget k attrs) /\
  exists is es, ifs' = ifs ++ is /\ errs' = errs ++ es /\
    sieve node_interface (filter (node_key nodes) d) is /\
    length is + length es = length (filter (node_key nodes) d).
Proof.
  intros ln nodes. induction d as [|[k v] d IH]; intros attrs ifs errs attrs' ifs' errs' N H; cbn [split_link_dict] in H.
  - injection H as <- <- <-. split; [intros k _ []|]. split; [auto|]. exists [], []. rewrite !app_nil_r.
    repeat split; [constructor].
  - inversion N as [|? ? N1 N2]; subst. cbn [filter]. rewrite node_key_mem. cbn [fst].
    destruct (memS k nodes) eqn:M.
    + apply memS_true in M.
      assert (K : exists a i e, split_link_dict ln nodes d attrs (ifs ++ i) (errs ++ e) = (attrs', ifs', errs') /\
                 ((exists x, i = [x] /\ e = [] /\ node_interface (k, v) x) \/
                  (exists x, i = [] /\ e = [x] /\ forall b, ~ node_interface (k, v) b)) /\ a = tt).
      { exists tt. destruct v as [|b|z|s|l|nd].
        1: { exists [[("node", VStr k)]], []. rewrite app_nil_r. split; [exact H|]. split; [|auto]. left.
             eexists. split; [reflexivity|]. split; [auto|]. split; [reflexivity|]. left. split; [reflexivity|].
             intros a Na. cbn. destruct (String.eqb_spec a "node"); [congruence|auto]. }
        5: { exists [dset "node" (VStr k) nd], []. rewrite app_nil_r. split; [exact H|]. split; [|auto]. left.
             eexists. split; [reflexivity|]. split; [auto|]. split; [cbn [fst]; apply dget_dset_same|]. right. exists nd.
             split; [reflexivity|]. intros a Na. apply dget_dset_other. auto. }
        all: exists [], [ENodeData ln k]; rewrite app_nil_r; split; [exact H|]; split; [|auto]; right;
             eexists; split; [reflexivity|]; split; [reflexivity|];
             intros b0 [_ [[E _]|[nd [E _]]]]; discriminate. }
      destruct K as [_ [i [e [K [C _]]]]].
      destruct (IH _ _ _ _ _ _ N2 K) as [P1 [P2 [is [es [-> [-> [S L]]]]]]]. split; [|split].
      * intros x X1 [E|X2]; [cbn in E; subst x; contradiction|]. rewrite P1 by auto. cbn [dget].
        destruct (String.eqb_spec x k) as [->|_]; [contradiction|auto].
      * intros x [X|X]; apply P2; [auto|]. right. intros Y. apply X. right. auto.
      * exists (i ++ is), (e ++ es). rewrite !app_assoc. split; [auto|split; [auto|]].
        destruct C as [[x [-> [-> C]]]|[x [-> [-> C]]]]; cbn; (split; [constructor; auto|lia]).
    + apply memS_false in M. destruct (IH _ _ _ _ _ _ N2 H) as [P1 [P2 [is [es [-> [-> [S L]]]]]]]. split; [|split].
      * intros x X1 X2. cbn [dget]. destruct (String.eqb_spec x k) as [->|Q].
        -- rewrite P2 by auto. apply dget_dset_same.
        -- destruct X2 as [E|X2]; [cbn in E; congruence|]. auto.
      * intros x X. assert (Q : x <> k) by (intros ->; destruct X as [X|X]; [auto|apply X; left; auto]).
        rewrite P2 by (destruct X as [X|X]; [auto|right; intros Y; apply X; right; auto]).
        apply dget_dset_other. auto.
      * exists is, es. auto.
Qed.

(* ---------- C117 ---------- *)

Lemma entries_list : forall ln v items, interfaces_list ln v = (items, []) <-> intf_entries v items.
Proof.
  intros ln v items. split.
  - intros H. destruct v; cbn in H; try discriminate; injection H as <-; constructor.
  - intros H. destruct H; auto.
Qed.

Lemma dget_dset2 : forall k a b (x y : val) d, k <> a -> k <> b -> dget k (dset a x (dset b y d)) = dget k d.
Proof. intros. rewrite !dget_dset_other by auto. auto. Qed.

Lemma link_object_sound : forall nodes ln l r, wf l ->
  adjust_link_object l ln nodes = (Some r, []) -> link_of nodes ln l r.
Proof.
  intros nodes ln l r W H. unfold adjust_link_object in H. destruct l as [| | |s|items|d]; try discriminate.
  - destruct (split_link_string ln nodes (split "-" s)) as [ifs errs] eqn:E. injection H as <- ->.
    destruct (split_string_ok _ _ _ _ _ E) as [S L]. cbn in L.
    eapply lo_string with (ps := split "-" s) (ifs := ifs); [apply split_dashed; auto|apply sieve_full; [auto|lia]| | |];
      try reflexivity.
    intros k K1 K2. cbn. rewrite (proj2 (String.eqb_neq _ _) K1), (proj2 (String.eqb_neq _ _) K2). auto.
  - destruct (adjust_interface_list ln nodes items) as [ifs errs] eqn:E. injection H as <- ->.
    apply lo_list with (ifs := ifs); [eapply adjust_list_ok; eauto| | |]; try reflexivity.
    intros k K1 K2. cbn. rewrite (proj2 (String.eqb_neq _ _) K1), (proj2 (String.eqb_neq _ _) K2). auto.
  - destruct (dget "interfaces" d) as [v|] eqn:G.
    + destruct (interfaces_list ln v) as [items e1] eqn:E1.
      destruct (adjust_interface_list ln nodes items) as [ifs e2] eqn:E2. injection H as <- H.
      apply app_eq_nil in H. destruct H as [-> ->].
      apply lo_intf with (v := v) (items := items) (ifs := ifs);
        [auto|apply (entries_list ln); auto|eapply adjust_list_ok; eauto|apply dget_dset_same| |].
      * rewrite dget_dset_other by discriminate. apply dget_dset_same.
      * intros k K1 K2. apply dget_dset2; auto.
    + destruct (split_link_dict ln nodes d [("_linkname", VStr ln)] [] []) as [[attrs ifs] errs] eqn:E.
      injection H as <- ->. apply wf_VDict in W. destruct W as [N _].
      destruct (split_dict_spec _ _ _ _ _ _ _ _ _ N E) as [P1 [P2 [is [es [-> [Q [S L]]]]]]].
      cbn in Q. subst es. cbn [app] in *. cbn in L.
      apply lo_nodes with (ifs := is); [auto|apply sieve_full; [exact S|unfold node_key in *; lia]|apply dget_dset_same| | |].
      * intros K. rewrite dget_dset_other by discriminate. rewrite P2; [reflexivity|]. right. apply dget_None. auto.
      * intros k K1 K2 K3. rewrite dget_dset_other by auto.
        destruct (in_dec string_dec k (dkeys d)) as [I|I]; [apply P1; auto|].
        rewrite P2 by auto. rewrite (proj2 (dget_None _ _) I). cbn. rewrite (proj2 (String.eqb_neq _ _) K2). auto.
      * intros k K1 K2 K3. rewrite dget_dset_other by auto. rewrite P2 by auto. cbn.
        rewrite (proj2 (String.eqb_neq _ _) K2). auto.
Qed.

Lemma sieve_Forall2_len : forall A B (R : A -> B -> Prop) l m m', sieve R l m -> Forall2 R l m' -> length m = length l.
Proof.
  intros A B R l m m' S. revert m'. induction S as [|a b l m H S IH|a l m H S IH]; intros m' F; auto.
  - inversion F; subst. cbn. f_equal. eauto.
  - inversion F; subst. exfalso. eapply H; eauto.
Qed.

(* A link specification is accepted without an error message if and only if it describes a link: a list or
   an interfaces attribute with known nodes only, a dictionary with node data for some of its keys, or a
   string of names starting with the names of known nodes. The link has the interfaces in the order of the
   specification and all the other attributes. *)
Theorem link_object_exact : forall nodes ln l, wf l ->
  (forall r, adjust_link_object l ln nodes = (Some r, []) -> link_of nodes ln l r) /\
  (forall r, link_of nodes ln l r -> snd (adjust_link_object l ln nodes) = []) /\
  (snd (adjust_link_object l ln nodes) = [] -> fst (adjust_link_object l ln nodes) <> None).
Proof.
  intros nodes ln l W. split; [intros r H; apply link_object_sound; auto|]. split.
  - intros r H. destruct H as [d v items ifs r G E F _ _ _|d ifs r G F _ _ _ _|items ifs r F _ _ _|s ps ifs r D F _ _ _];
      unfold adjust_link_object.
    + rewrite G. apply (entries_list ln) in E. rewrite E.
      rewrite (adjust_list_complete ln _ _ _ F). auto.
    + rewrite G. destruct (split_link_dict ln nodes d [("_linkname", VStr ln)] [] []) as [[attrs is] errs] eqn:E.
      cbn. apply wf_VDict in W. destruct W as [N _].
      destruct (split_dict_spec _ _ _ _ _ _ _ _ _ N E) as [_ [_ [is' [es [-> [-> [S L]]]]]]].
      pose proof (sieve_Forall2_len _ _ _ _ _ _ S F) as K. cbn [app]. destruct es; [auto|cbn in L; lia].
    + rewrite (adjust_list_complete ln _ _ _ F). auto.
    + apply split_dashed in D. rewrite D, (split_string_complete ln _ _ _ F). auto.
  - intros H K. unfold adjust_link_object in *. destruct l as [| | |s|items|d]; try discriminate.
    + destruct (split_link_string ln nodes (split "-" s)). discriminate.
    + destruct (adjust_interface_list ln nodes items). discriminate.
    + destruct (dget "interfaces" d).
      * destruct (interfaces_list ln v) as [its e]. destruct (adjust_interface_list ln nodes its). discriminate.
      * destruct (split_link_dict ln nodes d [("_linkname", VStr ln)] [] []) as [[a b] c]. discriminate.
Qed.

(* A link string may name a node that does not exist: any name that starts with the name of a node is
   accepted; a link dictionary silently takes the same name for an attribute. *)
Theorem link_unknown_node_refuted :
  adjust_link_object (VStr "r1 - r12") "links[1]" ["r1"] =
    (Some [("interfaces", VList [VDict [("node", VStr "r1")]; VDict [("node", VStr "r12")]]);
           ("_linkname", VStr "links[1]")], []) /\
  adjust_link_object (VDict [("r1", VNull); ("r12", VNull)]) "links[1]" ["r1"] =
    (Some [("_linkname", VStr "links[1]"); ("r12", VNull); ("interfaces", VList [VDict [("node", VStr "r1")]])], []).
Proof. split; reflexivity. Qed.

Example link_object_example :
  let l := VDict [("r1", VDict [("ipv4", VInt 1)]); ("role", VStr "core"); ("r2", VNull)] in
  wf l /\ exists r, adjust_link_object l "links[1]" ["r1"; "r2"; "r3"] = (Some r, []) /\
  dget "role" r = Some (VStr "core") /\ dget "r1" r = None /\
  interfaces_are r [[("ipv4", VInt 1); ("node", VStr "r1")]; [("node", VStr "r2")]].
Proof.
  cbv zeta. split.
  - cbn. repeat split; repeat constructor; cbn; intuition discriminate.
  - eexists. split; [reflexivity|]. repeat split; reflexivity.
Qed.

Example interface_list_example :
  adjust_interface_list "links[1]" ["r1"; "r2"] [VStr "r2"; VStr "x"; VDict [("node", VStr "r1"); ("a", VInt 1)]; VInt 3] =
  ([[("node", VStr "r2")]; [("node", VStr "r1"); ("a", VInt 1)]], [EUnknownNode "links[1]" "x"; ENotADict "links[1]"]).
Proof. reflexivity. Qed.

Print Assumptions interface_list_exact.
Print Assumptions link_object_exact.
Print Assumptions link_unknown_node_refuted.
