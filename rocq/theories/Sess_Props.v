(* Properties C150 and C151: attributes, secrets and BFD requests of BGP sessions (bgp.session plugin). *)
From Coq Require Import String Ascii ZArith Lia Bool List.
From Verif Require Import Base Box_Model Clone_Model Clone_Props Sess_Model.
Import ListNotations.
Local Open Scope string_scope.
Local Open Scope list_scope.
Local Open Scope nat_scope.

(* ---------- what the attributes of a session should be ---------- *)

(* an attribute is in use in a dictionary *)
Definition set_to (d : dict val) (a : string) (v : val) : Prop := dget a d = Some v /\ truthy v = true.

(* the value of an attribute of a session: the value of the interface, then the value of the node *)
Inductive wanted (bgp : dict val) (intf : option (dict val)) (a : string) : option val -> Prop :=
| w_intf : forall i v, intf = Some i -> set_to i a v -> wanted bgp intf a (Some v)
| w_node : forall v, (forall i w, intf = Some i -> ~ set_to i a w) -> set_to bgp a v -> wanted bgp intf a (Some v)
| w_none : (forall i w, intf = Some i -> ~ set_to i a w) -> (forall w, ~ set_to bgp a w) -> wanted bgp intf a None.

(* the interface of an EBGP session *)
Definition session_intf (n : snode) (g : ng) (i : si) : Prop :=
  In i (s_intf n) /\ i_vrf i = g_vrf g /\ dget "ifindex" (g_d g) = Some (VInt (i_index i)).

Lemma existsb_veqb : forall x l, existsb (veqb x) l = true <-> In x l.
Proof.
  intros x l. rewrite existsb_exists. split.
  - intros [y [I E]]. apply veqb_true in E. subst y. exact I.
  - intro I. exists x. split; [exact I | apply veqb_true; reflexivity].
Qed.

Lemma append_item_In : forall l v x, In x (append_item l v) <-> In x l \/ x = v.
Proof.
  intros l v x. unfold append_item. destruct (existsb (veqb v) l) eqn:E.
  - apply existsb_veqb in E. split; [tauto | intros [H|H]; [exact H | subst; exact E]].
  - rewrite in_app_iff. cbn [In]. split; intros [H|H]; auto.
    + destruct H as [H|[]]. auto.
Qed.

Lemma append_item_NoDup : forall l v, NoDup l -> NoDup (append_item l v).
Proof.
  intros l v N. unfold append_item. destruct (existsb (veqb v) l) eqn:E; [exact N|].
  assert (~ In v l) as I. { intro I. apply existsb_veqb in I. congruence. }
  clear E. induction N as [|x r X N IH]; cbn [app].
  - constructor; [intros [] | constructor].
  - constructor.
    + rewrite in_app_iff. intros [H|[H|[]]]; [exact (X H) | subst; apply I; left; reflexivity].
    + apply IH. intro H. apply I. right. exact H.
Qed.

Lemma clear_In : forall d l x, In x (clear_sessions d l) <-> In x l \/ dget "ipv4" d = Some x \/ dget "ipv6" d = Some x.
Proof.
  intros d l x. unfold clear_sessions. cbn [fold_left].
  destruct (dget "ipv4" d) as [u|] eqn:U; destruct (dget "ipv6" d) as [w|] eqn:W; rewrite ?append_item_In;
    (split; [intuition congruence|]); intros [H|[H|H]]; try discriminate H; try (injection H as H; subst); auto.
Qed.

Lemma clear_NoDup : forall d l, NoDup l -> NoDup (clear_sessions d l).
Proof.
  intros d l N. unfold clear_sessions. cbn [fold_left].
  destruct (dget "ipv4" d); destruct (dget "ipv6" d); repeat apply append_item_NoDup; exact N.
Qed.

Lemma attr_value_wanted : forall bgp intf a, wanted bgp intf a (attr_value bgp intf a).
Proof.
  intros bgp intf a. unfold attr_value.
  assert (forall d, (forall w, ~ set_to d a w) \/ exists w, set_to d a w /\ dget a d = Some w) as P.
  { intro d. destruct (dget a d) as [w|] eqn:G.
    - destruct (truthy w) eqn:T; [right; exists w; split; [split; assumption | reflexivity]|].
      left. intros w' [H X]. congruence.
    - left. intros w [H _]. congruence. }
  destruct intf as [i|].
  - destruct (dget a i) as [x|] eqn:G; [destruct (truthy x) eqn:T|].
    + apply w_intf with (i := i); [reflexivity | split; assumption].
    + assert (forall j w, Some i = Some j -> ~ set_to j a w) as Q by (intros j w H [H2 H3]; injection H as H; subst; congruence).
      destruct (dget a bgp) as [y|] eqn:G2; [destruct (truthy y) eqn:T2|];
        [apply w_node; [exact Q | split; assumption] | |]; apply w_none; try exact Q; intros w [H2 H3]; congruence.
    + assert (forall j w, Some i = Some j -> ~ set_to j a w) as Q by (intros j w H [H2 H3]; injection H as H; subst; congruence).
      destruct (dget a bgp) as [y|] eqn:G2; [destruct (truthy y) eqn:T2|];
        [apply w_node; [exact Q | split; assumption] | |]; apply w_none; try exact Q; intros w [H2 H3]; congruence.
  - assert (forall j w, @None (dict val) = Some j -> ~ set_to j a w) as Q by (intros j w H; discriminate H).
    destruct (dget a bgp) as [y|] eqn:G2; [destruct (truthy y) eqn:T2|];
      [apply w_node; [exact Q | split; assumption] | |]; apply w_none; try exact Q; intros w [H2 H3]; congruence.
Qed.

Lemma wanted_det : forall bgp intf a o p, wanted bgp intf a o -> wanted bgp intf a p -> o = p.
Proof.
  intros bgp intf a o p A B.
  destruct A as [i v E [S T]|v Q [S T]|Q R]; destruct B as [i' v' E' [S' T']|v' Q' [S' T']|Q' R']; try reflexivity.
  - congruence.
  - destruct (Q' i v E). split; assumption.
  - destruct (Q' i v E). split; assumption.
  - destruct (Q i' v' E'). split; assumption.
  - congruence.
  - destruct (R' v). split; assumption.
  - destruct (Q i' v' E'). split; assumption.
  - destruct (R v'). split; assumption.
Qed.

(* data of a session after the attributes were applied *)
Fixpoint adata (bgp : dict val) (intf : option (dict val)) (l : list string) (d : dict val) : dict val :=
  match l with
  | [] => d
  | a :: r => adata bgp intf r (match attr_value bgp intf a with Some v => dset a v d | None => d end)
  end.

Definition used (bgp : dict val) (intf : option (dict val)) (l : list string) : bool :=
  existsb (fun a => match attr_value bgp intf a with Some _ => true | None => false end) l.

Lemma adata_get : forall bgp intf l d k,
  dget k (adata bgp intf l d) =
  if memS k l then match attr_value bgp intf k with Some v => Some v | None => dget k d end else dget k d.
Proof.
  intros bgp intf. induction l as [|a r IH]; intros d k; [reflexivity|].
  cbn [adata]. rewrite IH. cbn [memS existsb]. fold (memS k r).
  change (memS k (a :: r)) with (String.eqb k a || memS k r).
  destruct (String.eqb k a) eqn:E; cbn [orb].
  - apply String.eqb_eq in E. subst a. destruct (attr_value bgp intf k) as [v|].
    + rewrite dget_dset_same. destruct (memS k r); reflexivity.
    + destruct (memS k r); reflexivity.
  - apply String.eqb_neq in E. destruct (attr_value bgp intf a) as [v|]; [rewrite dget_dset_other by exact E|]; reflexivity.
Qed.

Lemma str_of_dset : forall k a v d, k <> a -> str_of k (dset a v d) = str_of k d.
Proof. intros k a v d N. unfold str_of. rewrite dget_dset_other by exact N. reflexivity. Qed.

Definition nil {A} (l : list A) : bool := match l with [] => true | _ => false end.

Lemma nil_true : forall A (l : list A), nil l = true <-> l = [].
Proof. intros A [|x l]; split; intro H; try reflexivity; discriminate H. Qed.

Definition upd (bgp : dict val) (intf : option (dict val)) (l : list string) (g : ng) : ng := set_d g (adata bgp intf l (g_d g)).

Definition addr (g : ng) (x : val) : Prop := dget "ipv4" (g_d g) = Some x \/ dget "ipv6" (g_d g) = Some x.

(* attributes that describe a session are not among the attributes set by the plugin *)
Definition plain (l : list string) : Prop := forall a, In a ["name"; "type"; "ifindex"; "ipv4"; "ipv6"] -> ~ In a l.

Lemma adata_keeps : forall bgp intf l d k, ~ In k l -> dget k (adata bgp intf l d) = dget k d.
Proof. intros bgp intf l d k N. rewrite adata_get. apply memS_false in N. rewrite N. reflexivity. Qed.

Lemma upd_same : forall bgp intf l g, plain l ->
  g_vrf (upd bgp intf l g) = g_vrf g /\ g_name (upd bgp intf l g) = g_name g /\ g_type (upd bgp intf l g) = g_type g /\
  dget "ifindex" (g_d (upd bgp intf l g)) = dget "ifindex" (g_d g) /\
  dget "ipv4" (g_d (upd bgp intf l g)) = dget "ipv4" (g_d g) /\ dget "ipv6" (g_d (upd bgp intf l g)) = dget "ipv6" (g_d g).
Proof.
  intros bgp intf l g P. unfold g_name, g_type, str_of, upd, set_d. cbn [g_vrf g_d].
  rewrite !adata_keeps by (apply P; cbn; tauto). repeat split; reflexivity.
Qed.

Lemma on_intf_upd : forall bgp intf l g i, plain l -> on_intf i (upd bgp intf l g) = on_intf i g.
Proof.
  intros bgp intf l g i P. destruct (upd_same bgp intf l g P) as [A [B [C [D _]]]].
  unfold on_intf, ebgp. rewrite A, C, D. reflexivity.
Qed.

Definition upd_intf (bgp : dict val) (l : list string) (is : list si) (g : ng) : ng :=
  fold_left (fun g i => if on_intf i g then upd bgp (Some (i_bgp i)) l g else g) is g.

Lemma dget_pops : forall l k (d : dict val), dget k (fold_left (fun d a => dpop a d) l d) = if memS k l then None else dget k d.
Proof.
  induction l as [|a r IH]; intros k d; [reflexivity|]. cbn [fold_left]. rewrite IH.
  change (memS k (a :: r)) with (String.eqb k a || memS k r). destruct (memS k r); [rewrite orb_true_r; reflexivity|].
  destruct (String.eqb k a) eqn:E; cbn [orb].
  - apply String.eqb_eq in E. subst a. apply dget_dpop_same.
  - apply String.eqb_neq in E. apply dget_dpop_other. exact E.
Qed.

Lemma on_intf_session : forall n g i, In i (s_intf n) ->
  (on_intf i g = true <-> g_type g = "ebgp" /\ session_intf n g i).
Proof.
  intros n g i I. unfold on_intf, ebgp, session_intf. rewrite !andb_true_iff, String.eqb_eq.
  assert (vrf_eqb (i_vrf i) (g_vrf g) = true <-> i_vrf i = g_vrf g) as V.
  { destruct (i_vrf i) as [a|], (g_vrf g) as [b|]; cbn [vrf_eqb]; try (split; [discriminate | discriminate]); [|tauto].
    rewrite String.eqb_eq. split; [intros ->; reflexivity | intro H; injection H; auto]. }
  rewrite V. destruct (dget "ifindex" (g_d g)) as [[| |z| | |]|] eqn:E;
    try (split; [intros [_ H]; discriminate H | intros [_ [_ [_ H]]]; discriminate H]).
  rewrite Z.eqb_eq. split; [intros [[A B] C]; subst z; auto | intros [A [_ [B C]]]; injection C as C; auto].
Qed.

Lemma attr_value_Some : forall bgp intf a v, attr_value bgp intf a = Some v <-> wanted bgp intf a (Some v).
Proof.
  intros bgp intf a v. split.
  - intro H. rewrite <- H. apply attr_value_wanted.
  - intro H. exact (wanted_det _ _ _ _ _ (attr_value_wanted bgp intf a) H).
Qed.

Lemma used_In : forall bgp intf l, used bgp intf l = true <-> exists a v, In a l /\ wanted bgp intf a (Some v).
Proof.
  intros bgp intf l. unfold used. rewrite existsb_exists. split.
  - intros [a [I H]]. destruct (attr_value bgp intf a) as [v|] eqn:V; [|discriminate H]. exists a, v.
    split; [exact I | apply attr_value_Some; exact V].
  - intros [a [v [I W]]]. exists a. split; [exact I|]. apply attr_value_Some in W. rewrite W. reflexivity.
Qed.

(* what copy_local does when the lists are known *)
Definition no_apply (n : snode) (kind : string) : Prop := dget kind (session_apply (s_bgp n)) = None.

Lemma upd_intf_one : forall bgp l is g, plain l -> NoDup (map i_index is) ->
  (exists i, In i is /\ on_intf i g = true /\ upd_intf bgp l is g = upd bgp (Some (i_bgp i)) l g /\
             forall j, In j is -> on_intf j g = true -> j = i) \/
  (forall i, In i is -> on_intf i g = false) /\ upd_intf bgp l is g = g.
Proof.
  intros bgp l is g P. unfold upd_intf. revert g. induction is as [|i r IH]; intros g N; cbn [map] in N.
  - right. split; [intros i [] | reflexivity].
  - inversion N as [|x y NI NR]; subst. cbn [fold_left]. destruct (on_intf i g) eqn:O.
    + left. exists i. split; [left; reflexivity|]. split; [exact O|].
      assert (forall j, In j r -> on_intf j g = false) as Q.
      { intros j J. destruct (on_intf j g) eqn:OJ; [|reflexivity]. exfalso. apply NI.
        unfold on_intf in O, OJ. apply andb_true_iff in O, OJ. destruct O as [_ O]. destruct OJ as [_ OJ].
        destruct (dget "ifindex" (g_d g)) as [[| |z| | |]|]; try discriminate O.
        apply Z.eqb_eq in O, OJ. rewrite <- O, OJ. apply in_map. exact J. }
      split.
      * destruct (IH (upd bgp (Some (i_bgp i)) l g) NR) as [[j [J [OJ _]]]|[_ E]].
        -- rewrite on_intf_upd in OJ by exact P. rewrite (Q j J) in OJ. discriminate OJ.
        -- exact E.
      * intros j [J|J] OJ; [symmetry; exact J | rewrite (Q j J) in OJ; discriminate OJ].
    + destruct (IH g NR) as [[j [J [OJ [E U]]]]|[Q E]].
      * left. exists j. split; [right; exact J|]. split; [exact OJ|]. split; [exact E|].
        intros k [K|K] OK; [subst k; congruence | exact (U k K OK)].
      * right. split; [|exact E]. intros k [K|K]; [subst k; exact O | exact (Q k K)].
Qed.

Lemma ibgp_type : forall g, ibgp g = true <-> g_type g = "ibgp".
Proof. intro g. apply String.eqb_eq. Qed.
Lemma ebgp_type : forall g, ebgp g = true <-> g_type g = "ebgp".
Proof. intro g. apply String.eqb_eq. Qed.

Definition session (g : ng) : Prop := g_type g = "ibgp" \/ g_type g = "ebgp".

Lemma listed_session : forall g, listed g = true <-> session g.
Proof. intro g. unfold listed, session. rewrite orb_true_iff, ibgp_type, ebgp_type. reflexivity. Qed.

Lemma secrets_fold : forall l acc,
  let r := fold_left (fun acc g => match dget "password" (g_d g) with Some p => append_item acc p | None => acc end) l acc in
  (forall x, In x r <-> In x acc \/ exists g, In g l /\ dget "password" (g_d g) = Some x) /\ (NoDup acc -> NoDup r).
Proof.
  induction l as [|g r IH]; intro acc; cbn [fold_left].
  - split; [intro x; split; [left; assumption | intros [I|[g [[] _]]]; exact I] | auto].
  - destruct (IH (match dget "password" (g_d g) with Some p => append_item acc p | None => acc end)) as [A B]. split.
    + intro x. rewrite A. destruct (dget "password" (g_d g)) as [p|] eqn:G.
      * rewrite append_item_In. split.
        -- intros [[I|I]|[h [I J]]]; [left; exact I | right; exists g; split; [left; reflexivity | congruence]|].
           right. exists h. split; [right; exact I | exact J].
        -- intros [I|[h [[I|I] J]]]; [left; left; exact I | subst h; left; right; congruence|].
           right. exists h. split; assumption.
      * split.
        -- intros [I|[h [I J]]]; [left; exact I|]. right. exists h. split; [right; exact I | exact J].
        -- intros [I|[h [[I|I] J]]]; [left; exact I | subst h; congruence|]. right. exists h. split; assumption.
    + intro N. apply B. destruct (dget "password" (g_d g)); [apply append_item_NoDup|]; exact N.
Qed.

(* Every TCP-AO session has a password or is reported; the secrets of the node are the passwords of
   these sessions, without repetitions. *)
Theorem tcpao_secrets_exact : forall node n n' e,
  tcpao node n = (n', e) ->
  s_ngb n' = s_ngb n /\
  (forall x, In x (s_secrets n') <-> In x (s_secrets n) \/
     exists g, In g (s_ngb n) /\ session g /\ dget "tcp_ao" (g_d g) <> None /\ dget "password" (g_d g) = Some x) /\
  (NoDup (s_secrets n) -> NoDup (s_secrets n')) /\
  (forall x, In x e <-> exists g, In g (s_ngb n) /\ session g /\ dget "tcp_ao" (g_d g) <> None /\
     dget "password" (g_d g) = None /\ x = ENoPassword node (g_name g)).
Proof.
  intros node n n' e H. unfold tcpao in H.
  set (l := filter (fun g => listed g && dmem "tcp_ao" (g_d g)) (s_ngb n)) in H.
  assert (forall g, In g l <-> In g (s_ngb n) /\ session g /\ dget "tcp_ao" (g_d g) <> None) as L.
  { intro g. unfold l. rewrite filter_In, andb_true_iff, listed_session. unfold dmem.
    destruct (dget "tcp_ao" (g_d g)); intuition congruence. }
  destruct (secrets_fold l (s_secrets n)) as [A B]. injection H as <- <-. cbn [s_ngb s_secrets].
  refine (conj eq_refl (conj _ (conj B _))).
  - intro x. rewrite A. split; (intros [I|[g I]]; [left; exact I | right; exists g]).
    + destruct I as [I J]. apply L in I. tauto.
    + destruct I as [I [S [T Q]]]. split; [apply L; tauto | exact Q].
  - intro x. rewrite in_flat_map. split; intros [g I]; exists g.
    + destruct I as [I J]. apply L in I. unfold dmem in J. destruct (dget "password" (g_d g)); [destruct J|].
      destruct J as [J|[]]. symmetry in J. tauto.
    + destruct I as [I [S [T [Q X]]]]. split; [apply L; tauto|]. unfold dmem. rewrite Q. left. symmetry. exact X.
Qed.

(* BFD is kept on the sessions that want it, and a node running BFD with a BGP neighbor without using
   the BFD module is reported. *)
Theorem bfd_requests_exact : forall node n n' e,
  bfd_requests node n = (n', e) ->
  (forall x, In x e <-> exists g v, In g (s_ngb n) /\ session g /\ set_to (g_d g) "bfd" v /\ ~ In "bfd" (s_module n) /\
     x = ENoBfd node (g_name g)) /\
  length (s_ngb n') = length (s_ngb n) /\
  forall k g, nth_error (s_ngb n) k = Some g ->
    exists g', nth_error (s_ngb n') k = Some g' /\ g_vrf g' = g_vrf g /\
      (forall a, a <> "bfd" -> dget a (g_d g') = dget a (g_d g)) /\
      (forall v, dget "bfd" (g_d g') = Some v <-> dget "bfd" (g_d g) = Some v /\ (session g -> truthy v = true)).
Proof.
  intros node n n' e H. unfold bfd_requests in H. injection H as <- <-. refine (conj _ (conj _ _)).
  - intro x. rewrite in_flat_map. split.
    + intros [g [I J]]. destruct (listed g && vget "bfd" (g_d g) && negb (memS "bfd" (s_module n))) eqn:E; [|destruct J].
      rewrite !andb_true_iff in E. destruct E as [[S V] M]. apply listed_session in S. unfold vget in V.
      destruct (dget "bfd" (g_d g)) as [v|] eqn:G; [|discriminate V]. exists g, v. split; [exact I|]. split; [exact S|].
      split; [split; assumption|]. apply negb_true_iff, memS_false in M. split; [exact M|].
      destruct J as [J|[]]. symmetry. exact J.
    + intros [g [v [I [S [[G T] [M X]]]]]]. exists g. split; [exact I|].
      apply listed_session in S. apply memS_false in M. unfold vget. rewrite S, G, T, M. left. symmetry. exact X.
  - unfold set_ngb. cbn [s_ngb]. apply map_length.
  - intros k g N. unfold set_ngb. cbn [s_ngb]. eexists. split; [rewrite nth_error_map, N; reflexivity|]. cbn [option_map].
    unfold vget, dmem. destruct (listed g) eqn:L.
    + apply listed_session in L. destruct (dget "bfd" (g_d g)) as [w|] eqn:G; cbn [andb].
      * destruct (truthy w) eqn:T; cbn [negb].
        -- refine (conj eq_refl (conj (fun a _ => eq_refl) _)). intro v. rewrite G. split; [|tauto].
           intro E. split; [exact E|]. intros _. congruence.
        -- cbn [set_d g_vrf g_d]. refine (conj eq_refl (conj _ _)).
           ++ intros a Q. apply dget_dpop_other. exact Q.
           ++ intro v. rewrite dget_dpop_same. split; [discriminate|]. intros [E Q]. specialize (Q L). congruence.
      * refine (conj eq_refl (conj (fun a _ => eq_refl) _)). intro v. rewrite G. split; [discriminate | tauto].
    + assert (~ session g) as S. { intro S. apply listed_session in S. congruence. }
      cbn [andb]. refine (conj eq_refl (conj (fun a _ => eq_refl) _)). intro v. tauto.
Qed.

Section Session.
Variable attrs : list string.
Variable feat : string -> string -> option val.
Variable provider : string.

(* a device supports an attribute, possibly only with some providers *)
Definition supported (node a : string) : Prop :=
  exists v, feat node a = Some v /\ truthy v = true /\ (forall l, v = VList l -> In (VStr provider) l).

(* the attributes of the sessions of a kind that are copied from the node *)
Inductive applied (bgp : dict val) (kind a : string) : Prop :=
| ap_default : (forall d, lookup ["session"; "apply"] (VDict bgp) <> Some (VDict d)) -> kind = "ebgp" -> In a attrs -> applied bgp kind a
| ap_all : forall d v, lookup ["session"; "apply"] (VDict bgp) = Some (VDict d) -> dget kind d = Some v ->
    (v = VNull \/ v = VBool true \/ exists l, v = VList l /\ In (VStr "*") l) -> In a attrs -> applied bgp kind a
| ap_list : forall d l, lookup ["session"; "apply"] (VDict bgp) = Some (VDict d) -> dget kind d = Some (VList l) ->
    ~ In (VStr "*") l -> In (VStr a) l -> applied bgp kind a.

(* an attribute of a session set by the plugin; without it the attribute is removed *)
Inductive session_value (n : snode) (g : ng) (a : string) : option val -> Prop :=
| sv_ibgp : forall o, g_type g = "ibgp" -> applied (s_bgp n) "ibgp" a -> wanted (s_bgp n) None a o -> session_value n g a o
| sv_ebgp : forall i o, g_type g = "ebgp" -> applied (s_bgp n) "ebgp" a -> session_intf n g i ->
    wanted (s_bgp n) (Some (i_bgp i)) a o -> session_value n g a o
| sv_not : (g_type g = "ibgp" /\ ~ applied (s_bgp n) "ibgp" a \/
            g_type g = "ebgp" /\ (~ applied (s_bgp n) "ebgp" a \/ forall i, ~ session_intf n g i)) -> session_value n g a None.

(* ---------- the plugin ---------- *)

Lemma check_support_nil : forall node a x, check_support feat provider node a x = [] <-> supported node a.
Proof.
  intros node a x. unfold check_support, supported. destruct (feat node a) as [v|] eqn:F.
  2: { split; [discriminate | intros [v [H _]]; discriminate H]. }
  destruct (truthy v) eqn:T; cbn [negb].
  2: { split; [discriminate | intros [w [H [X _]]]; injection H as H; subst; congruence]. }
  destruct v as [| | | |l|d]; try (split; [intros _; eexists; split; [reflexivity | split; [exact T | intros ? H; discriminate H]] | reflexivity]).
  destruct (existsb (veqb (VStr provider)) l) eqn:E.
  - split; [intros _ | reflexivity]. exists (VList l). split; [reflexivity|]. split; [exact T|].
    intros l' H. injection H as H. subst l'. apply existsb_veqb. exact E.
  - split; [discriminate|]. intros [w [H [_ X]]]. injection H as H. subst w.
    specialize (X l eq_refl). apply existsb_veqb in X. congruence.
Qed.

(* everything about one session *)
Lemma apply_attributes_spec : forall node bgp intf l d ok clear d' ok' e c u,
  apply_attributes feat provider node bgp intf l d ok clear = (d', ok', e, c, u) ->
  d' = adata bgp intf l d /\ ok' = ok && nil e /\ u = used bgp intf l /\
  (ok = false -> e = []) /\
  (~ In "name" l ->
     (ok = true -> e = [] <-> forall a, In a l -> attr_value bgp intf a <> None -> supported node a) /\
     (forall x, In x e -> exists a v, In a l /\ attr_value bgp intf a = Some v /\ ~ supported node a /\
                                      (x = ESupport node a (str_of "name" d) \/ x = EProvider node a))) /\
  length e <= 1 /\
  (~ In "ipv4" l -> ~ In "ipv6" l ->
     forall x, In x c <-> In x clear \/ u = true /\ (dget "ipv4" d = Some x \/ dget "ipv6" d = Some x)) /\
  (NoDup clear -> NoDup c).
Proof.
  intros node bgp intf. induction l as [|a r IH]; intros d ok clear d' ok' e c u H; cbn [apply_attributes] in H.
  - injection H as <- <- <- <- <-. cbn [adata nil length]. unfold used. cbn [existsb].
    rewrite andb_true_r. repeat split; auto; try (intros; contradiction).
    + intros [X|[X _]]; [exact X | discriminate X].
  - unfold used. cbn [adata existsb]. fold (used bgp intf r).
    destruct (attr_value bgp intf a) as [v|] eqn:AV.
    + set (ck := if ok then check_support feat provider node a (str_of "name" d) else []) in H.
      destruct (apply_attributes feat provider node bgp intf r (dset a v d) (ok && match ck with [] => true | _ => false end)
                  (clear_sessions (dset a v d) clear)) as [[[[d2 ok2] e2] c2] u2] eqn:R.
      injection H as <- <- <- <- <-.
      destruct (IH _ _ _ _ _ _ _ _ R) as [D [O [U [F [N [L [C ND]]]]]]]. clear IH R.
      fold (nil ck) in O, F, N.
      refine (conj D (conj _ (conj eq_refl (conj _ (conj _ (conj _ (conj _ _))))))).
      * rewrite O. destruct ok, ck; cbn [nil andb app]; try reflexivity. 
      * intro K. subst ok. cbn [andb] in F. unfold ck. cbn [app]. exact (F eq_refl).
      * intro NI. assert (~ In "name" r) as NR by (intro I; apply NI; right; exact I).
        assert ("name" <> a) as NA by (intro I; apply NI; left; symmetry; exact I).
        destruct (N NR) as [N1 N2]. rewrite (str_of_dset "name" a v d NA) in N2. split.
        -- intro K. subst ok. cbn [andb] in N1. split.
           ++ intro E. apply app_eq_nil in E. destruct E as [E1 E2].
              intros b [I|I] Y; [subst b; apply (check_support_nil node a (str_of "name" d)); exact E1|].
              rewrite E1 in N1. exact (proj1 (N1 eq_refl) E2 b I Y).
           ++ intro Q. assert (ck = []) as E1.
              { apply check_support_nil. apply Q; [left; reflexivity | rewrite AV; discriminate]. }
              rewrite E1 in *. cbn [app]. apply N1; [reflexivity|]. intros b I Y. apply Q; [right; exact I | exact Y].
        -- intros x I. apply in_app_or in I. destruct I as [I|I].
           ++ exists a, v. split; [left; reflexivity|]. split; [exact AV|].
              destruct ok; [|destruct I]. split.
              ** intro S. apply (check_support_nil node a (str_of "name" d)) in S. unfold ck in I. rewrite S in I. destruct I.
              ** unfold ck, check_support in I. destruct (feat node a) as [w|].
                 --- destruct (negb (truthy w)); [destruct I as [I|[]]; left; symmetry; exact I|].
                     destruct w; try destruct I. destruct (existsb (veqb (VStr provider)) l); [destruct I|].
                     destruct I as [I|[]]; right; symmetry; exact I.
                 --- destruct I as [I|[]]; left; symmetry; exact I.
           ++ destruct (N2 x I) as [b [w [J K]]]. exists b, w. split; [right; exact J | exact K].
      * rewrite app_length. destruct ck as [|x ck'] eqn:CK.
        -- cbn [length]. exact L.
        -- assert (e2 = []) as E2. { apply F. cbn [nil]. apply andb_false_r. }
           subst e2. cbn [length]. rewrite Nat.add_0_r.
           assert (length ck <= 1) as Y.
           { unfold ck. destruct ok; [|cbn; lia]. unfold check_support. destruct (feat node a) as [w|]; [|cbn; lia].
             destruct (negb (truthy w)); [cbn; lia|]. destruct w; try (cbn; lia).
             destruct (existsb _ _); cbn; lia. }
           rewrite CK in Y. exact Y.
      * intros N4 N6 x.
        assert ("ipv4" <> a) as A4 by (intro I; apply N4; left; symmetry; exact I).
        assert ("ipv6" <> a) as A6 by (intro I; apply N6; left; symmetry; exact I).
        rewrite C.
        2: { intro I; apply N4; right; exact I. } 
        2: { intro I; apply N6; right; exact I. }
        rewrite clear_In, !dget_dset_other by assumption. tauto.
      * intro Y. apply ND. apply clear_NoDup. exact Y.
    + cbn [orb]. destruct (IH _ _ _ _ _ _ _ _ H) as [D [O [U [F [N [L [C ND]]]]]]]. clear IH.
      refine (conj D (conj O (conj U (conj F (conj _ (conj L (conj _ ND))))))).
      * intro NI. destruct (N (fun I => NI (or_intror I))) as [N1 N2]. split.
        -- intro K. rewrite (N1 K). split; intros Q b I Y.
           ++ destruct I as [I|I]; [subst b; congruence | exact (Q b I Y)].
           ++ exact (Q b (or_intror I) Y).
        -- intros x I. destruct (N2 x I) as [b [w [J K]]]. exists b, w. split; [right; exact J | exact K].
      * intros N4 N6. exact (C (fun I => N4 (or_intror I)) (fun I => N6 (or_intror I))).
Qed.

Lemma apply_all_spec : forall node bgp intf l sel stop gs ok clear gs' ok' e c u,
  apply_all feat provider node bgp intf l sel stop gs ok clear = (gs', ok', e, c, u) ->
  ~ In "name" l -> ~ In "ipv4" l -> ~ In "ipv6" l ->
  ok' = ok && nil e /\
  (NoDup clear -> NoDup c) /\
  (forall x, In x e -> exists g a v, In g gs /\ sel g = true /\ In a l /\ attr_value bgp intf a = Some v /\
     ~ supported node a /\ (x = ESupport node a (g_name g) \/ x = EProvider node a)) /\
  (stop = false \/ ok = true ->
     (e = [] <-> forall g a, In g gs -> sel g = true -> In a l -> attr_value bgp intf a <> None -> supported node a)) /\
  (stop = false \/ ok = true /\ e = [] ->
     gs' = map (fun g => if sel g then upd bgp intf l g else g) gs /\
     u = existsb sel gs && used bgp intf l /\
     (forall x, In x c <-> In x clear \/ exists g, In g gs /\ sel g = true /\ used bgp intf l = true /\ addr g x)).
Proof.
  intros node bgp intf l sel stop gs ok clear gs' ok' e c u H NN N4 N6. revert ok clear gs' ok' e c u H.
  induction gs as [|g r IH]; intros ok clear gs' ok' e c u H; cbn [apply_all] in H.
  - injection H as <- <- <- <- <-. cbn [nil]. rewrite andb_true_r.
    refine (conj eq_refl (conj (fun N => N) (conj _ (conj _ _)))).
    + intros x [].
    + intros _. split; [intros _ g a [] | reflexivity].
    + intros _. refine (conj eq_refl (conj eq_refl _)). intro x. split; [left; assumption|].
      intros [X|[g [[] _]]]. exact X.
  - destruct (sel g) eqn:S; cbn [andb] in H.
    + destruct (ok || negb stop) eqn:OS.
      * destruct (apply_attributes feat provider node bgp intf l (g_d g) true clear) as [[[[d ok1] e1] c1] u1] eqn:A.
        destruct (apply_all feat provider node bgp intf l sel stop r (ok && ok1) c1) as [[[[r2 ok2] e2] c2] u2] eqn:R.
        injection H as <- <- <- <- <-.
        destruct (apply_attributes_spec _ _ _ _ _ _ _ _ _ _ _ _ A) as [D [O [U [F [N [L [C ND]]]]]]].
        destruct (N NN) as [N1 N2]. specialize (N1 eq_refl). specialize (C N4 N6).
        destruct (IH _ _ _ _ _ _ _ R) as [O2 [ND2 [X2 [E2 P2]]]]. clear IH. cbn [andb] in O.
        refine (conj _ (conj (fun Y => ND2 (ND Y)) (conj _ (conj _ _)))).
        -- rewrite O2, O. destruct ok, e1, e2; reflexivity.
        -- intros x I. apply in_app_or in I. destruct I as [I|I].
           ++ destruct (N2 x I) as [a [v [J [K [M W]]]]]. exists g, a, v.
              refine (conj (or_introl eq_refl) (conj S (conj J (conj K (conj M W))))).
           ++ destruct (X2 x I) as [g2 [a [v [J K]]]]. exists g2, a, v. split; [right; exact J | exact K].
        -- intro Y. split.
           ++ intro E. apply app_eq_nil in E. destruct E as [E1' E2'].
              assert (stop = false \/ ok && ok1 = true) as Y2.
              { destruct Y as [Y|Y]; [left; exact Y | right; rewrite Y, O, E1'; reflexivity]. }
              intros g2 a [I|I] S2 J K.
              ** exact (proj1 N1 E1' a J K).
              ** exact (proj1 (E2 Y2) E2' g2 a I S2 J K).
           ++ intro Q. assert (e1 = []) as E1'.
              { apply N1. intros a J K. exact (Q g a (or_introl eq_refl) S J K). }
              assert (stop = false \/ ok && ok1 = true) as Y2.
              { destruct Y as [Y|Y]; [left; exact Y | right; rewrite Y, O, E1'; reflexivity]. }
              rewrite E1'. cbn [app]. apply (E2 Y2). intros g2 a I. exact (Q g2 a (or_intror I)).
        -- intro Y. assert (stop = false \/ ok && ok1 = true /\ e2 = []) as Y2.
           { destruct Y as [Y|[Y E]]; [left; exact Y|]. apply app_eq_nil in E. destruct E as [E1' E2'].
             right. split; [rewrite Y, O, E1'; reflexivity | exact E2']. }
           destruct (P2 Y2) as [P3 [P4 P5]]. cbn [map existsb]. rewrite S. cbn [orb andb].
           refine (conj _ (conj _ _)).
           ++ unfold upd at 1. rewrite <- D. f_equal. exact P3.
           ++ rewrite P4, U. destruct (used bgp intf l), (existsb sel r); reflexivity.
           ++ intro x. rewrite P5, C, U. split.
              ** intros [[I|[I J]]|[g2 [I J]]]; [left; exact I | | ].
                 --- right. exists g. refine (conj (or_introl eq_refl) (conj S (conj I J))).
                 --- right. exists g2. split; [right; exact I | exact J].
              ** intros [I|[g2 [[I|I] [J [K M]]]]]; [left; left; exact I | |].
                 --- subst g2. left. right. split; [exact K | exact M].
                 --- right. exists g2. refine (conj I (conj J (conj K M))).
      * apply orb_false_iff in OS. destruct OS as [OF SF]. apply negb_false_iff in SF. subst ok stop. 
        destruct (apply_all feat provider node bgp intf l sel true r false clear) as [[[[r2 ok2] e2] c2] u2] eqn:R.
        injection H as <- <- <- <- <-.
        destruct (IH _ _ _ _ _ _ _ R) as [O2 [ND2 [X2 _]]].
        refine (conj O2 (conj ND2 (conj _ (conj _ _)))).
        -- intros x I. destruct (X2 x I) as [g2 [a [v [J K]]]]. exists g2, a, v. split; [right; exact J | exact K].
        -- intros [Y|Y]; discriminate Y.
        -- intros [Y|[Y _]]; discriminate Y.
    + destruct (apply_all feat provider node bgp intf l sel stop r ok clear) as [[[[r2 ok2] e2] c2] u2] eqn:R.
      injection H as <- <- <- <- <-.
      destruct (IH _ _ _ _ _ _ _ R) as [O2 [ND2 [X2 [E2 P2]]]].
      refine (conj O2 (conj ND2 (conj _ (conj _ _)))).
      * intros x I. destruct (X2 x I) as [g2 [a [v [J K]]]]. exists g2, a, v. split; [right; exact J | exact K].
      * intro Y. rewrite (E2 Y). split; intros Q g2 a.
        -- intros [I|I] S2; [subst; congruence | exact (Q g2 a I S2)].
        -- intro I. exact (Q g2 a (or_intror I)).
      * intro Y. destruct (P2 Y) as [P3 [P4 P5]]. cbn [map existsb]. rewrite S. cbn [orb].
        refine (conj _ (conj P4 _)); [f_equal; exact P3|].
        intro x. rewrite P5. split; (intros [I|[g2 [I [J K]]]]; [left; exact I | right; exists g2]).
        -- refine (conj (or_intror I) (conj J K)).
        -- destruct I as [I|I]; [subst; congruence|]. refine (conj I (conj J K)).
Qed.

Lemma apply_intfs_spec : forall node bgp l is gs clear gs' e c u,
  plain l -> apply_intfs feat provider node bgp l is gs clear = (gs', e, c, u) ->
  gs' = map (upd_intf bgp l is) gs /\
  u = existsb (fun i => existsb (on_intf i) gs && used bgp (Some (i_bgp i)) l) is /\
  (NoDup clear -> NoDup c) /\
  (e = [] <-> forall i g a, In i is -> In g gs -> on_intf i g = true -> In a l ->
                attr_value bgp (Some (i_bgp i)) a <> None -> supported node a) /\
  (forall x, In x e -> exists i g a v, In i is /\ In g gs /\ on_intf i g = true /\ In a l /\
     attr_value bgp (Some (i_bgp i)) a = Some v /\ ~ supported node a /\ (x = ESupport node a (g_name g) \/ x = EProvider node a)) /\
  (forall x, In x c <-> In x clear \/ exists i g, In i is /\ In g gs /\ on_intf i g = true /\
                          used bgp (Some (i_bgp i)) l = true /\ addr g x).
Proof.
  intros node bgp l is. induction is as [|i r IH]; intros gs clear gs' e c u P H; cbn [apply_intfs] in H.
  - injection H as <- <- <- <-. cbn [existsb]. refine (conj _ (conj eq_refl (conj (fun N => N) (conj _ (conj _ _))))).
    + symmetry. apply map_id.
    + split; [intros _ i g a [] | reflexivity].
    + intros x [].
    + intro x. split; [left; assumption | intros [I|[i [g [[] _]]]]; exact I].
  - destruct (apply_all feat provider node bgp (Some (i_bgp i)) l (on_intf i) false gs true clear) as [[[[g1 ok1] e1] c1] u1] eqn:A.
    destruct (apply_intfs feat provider node bgp l r g1 c1) as [[[g2 e2] c2] u2] eqn:R.
    injection H as <- <- <- <-.
    destruct (apply_all_spec _ _ _ _ _ _ _ _ _ _ _ _ _ _ A) as [_ [ND [X [E Q]]]]; try (apply P; cbn; tauto).
    destruct (Q (or_introl eq_refl)) as [G1 [U1 C1]]. specialize (E (or_introl eq_refl)).
    destruct (IH _ _ _ _ _ _ P R) as [G2 [U2 [ND2 [E2 [X2 C2]]]]]. clear IH Q A R.
    assert (forall j g, on_intf j (if on_intf i g then upd bgp (Some (i_bgp i)) l g else g) = on_intf j g) as OI.
    { intros j g. destruct (on_intf i g); [apply on_intf_upd; exact P | reflexivity]. }
    assert (forall g, In g gs -> In (if on_intf i g then upd bgp (Some (i_bgp i)) l g else g) g1) as IG.
    { intros g I. rewrite G1. apply (in_map (fun g => if on_intf i g then upd bgp (Some (i_bgp i)) l g else g)). exact I. }
    assert (forall h, In h g1 -> exists g, In g gs /\ h = if on_intf i g then upd bgp (Some (i_bgp i)) l g else g) as GI.
    { intros h I. rewrite G1 in I. apply in_map_iff in I. destruct I as [g [I J]]. exists g. split; [exact J | symmetry; exact I]. }
    assert (forall g, g_name (if on_intf i g then upd bgp (Some (i_bgp i)) l g else g) = g_name g) as NM.
    { intro g. destruct (on_intf i g); [apply (upd_same bgp (Some (i_bgp i)) l g P) | reflexivity]. }
    assert (forall g x, addr (if on_intf i g then upd bgp (Some (i_bgp i)) l g else g) x <-> addr g x) as AD.
    { intros g x. destruct (on_intf i g); [|tauto]. unfold addr.
      destruct (upd_same bgp (Some (i_bgp i)) l g P) as [_ [_ [_ [_ [B4 B6]]]]]. rewrite B4, B6. tauto. }
    refine (conj _ (conj _ (conj (fun N => ND2 (ND N)) (conj _ (conj _ _))))).
    + rewrite G2, G1, map_map. apply map_ext. intro g. reflexivity.
    + cbn [existsb]. rewrite U1, U2. f_equal.
      clear -OI G1. induction r as [|j r IH]; [reflexivity|]. cbn [existsb]. rewrite IH. f_equal. f_equal.
      rewrite G1. clear -OI. induction gs as [|g gs IH]; [reflexivity|]. cbn [map existsb]. rewrite OI, IH. reflexivity.
    + split.
      * intro N. apply app_eq_nil in N. destruct N as [M1 M2]. intros j g a [J|J] I O K V.
        -- subst j. exact (proj1 E M1 g a I O K V).
        -- refine (proj1 E2 M2 j _ a J (IG g I) _ K V). rewrite OI. exact O.
      * intro Q. assert (e1 = []) as M1.
        { apply E. intros g a I O K V. exact (Q i g a (or_introl eq_refl) I O K V). }
        rewrite M1. cbn [app]. apply E2. intros j h a J I O K V. destruct (GI h I) as [g [I2 ->]]. rewrite OI in O.
        exact (Q j g a (or_intror J) I2 O K V).
    + intros x I. apply in_app_or in I. destruct I as [I|I].
      * destruct (X x I) as [g [a [v [J [K M]]]]]. exists i, g, a, v. exact (conj (or_introl eq_refl) (conj J (conj K M))).
      * destruct (X2 x I) as [j [h [a [v [J [K [O [M [V [S W]]]]]]]]]]. destruct (GI h K) as [g [K2 ->]].
        rewrite OI in O. rewrite NM in W. exists j, g, a, v.
        exact (conj (or_intror J) (conj K2 (conj O (conj M (conj V (conj S W)))))).
    + intro x. rewrite C2, C1. split.
      * intros [[I|[g [I J]]]|[j [h [J [K [O [V W]]]]]]]; [left; exact I | |].
        -- right. exists i, g. split; [left; reflexivity|]. split; [exact I | exact J].
        -- destruct (GI h K) as [g [K2 ->]]. rewrite OI in O. apply (proj1 (AD g x)) in W. right. exists j, g.
           exact (conj (or_intror J) (conj K2 (conj O (conj V W)))).
      * intros [I|[j [g [[J|J] [K [O [V W]]]]]]]; [left; left; exact I | |].
        -- subst j. left. right. exists g. exact (conj K (conj O (conj V W))).
        -- right. exists j. eexists. refine (conj J (conj (IG g K) (conj _ (conj V _)))); [rewrite OI; exact O | apply AD; exact W].
Qed.

(* ---------- all sessions of a node ---------- *)

Lemma attribute_list_In : forall v a,
  In a (attribute_list attrs v) <->
  (v = VNull \/ v = VBool true \/ exists l, v = VList l /\ In (VStr "*") l) /\ In a attrs \/
  exists l, v = VList l /\ ~ In (VStr "*") l /\ In (VStr a) l.
Proof.
  intros v a. unfold attribute_list. destruct v as [|[]|z|s|l|d].
  - split; [intro I; left; split; [left; reflexivity | exact I] | intros [[_ I]|[l [H _]]]; [exact I | discriminate H]].
  - split; [intro I; left; split; [right; left; reflexivity | exact I] | intros [[_ I]|[l [H _]]]; [exact I | discriminate H]].
  - split; [intros [] | intros [[[H|[H|[l [H _]]]] _]|[l [H _]]]; discriminate H].
  - split; [intros [] | intros [[[H|[H|[l [H _]]]] _]|[l [H _]]]; discriminate H].
  - split; [intros [] | intros [[[H|[H|[l [H _]]]] _]|[l [H _]]]; discriminate H].
  - destruct (existsb (veqb (VStr "*")) l) eqn:E.
    + apply existsb_veqb in E. split.
      * intro I. left. split; [right; right; exists l; split; [reflexivity | exact E] | exact I].
      * intros [[_ I]|[l' [H [N _]]]]; [exact I | injection H as H; subst l'; contradiction].
    + assert (~ In (VStr "*") l) as N by (intro I; apply existsb_veqb in I; congruence). rewrite in_flat_map. split.
      * intros [x [I J]]. right. exists l. split; [reflexivity|]. split; [exact N|].
        destruct x; try (destruct J; fail). destruct J as [J|[]]. subst. exact I.
      * intros [[[H|[H|[l' [H J]]]] _]|[l' [H [_ J]]]]; try discriminate H; injection H as H; subst l'; [contradiction|].
        exists (VStr a). split; [exact J | left; reflexivity].
  - split; [intros [] | intros [[[H|[H|[l [H _]]]] _]|[l [H _]]]; discriminate H].
Qed.

Lemma applied_list : forall bgp kind a,
  applied bgp kind a <-> exists v, dget kind (session_apply bgp) = Some v /\ In a (attribute_list attrs v).
Proof.
  intros bgp kind a. unfold session_apply. split.
  - intros [N K I|d v E G V I|d l E G N I].
    + subst kind. exists VNull. split; [|exact I].
      destruct (lookup ["session"; "apply"] (VDict bgp)) as [[| | | | |d]|]; try reflexivity. destruct (N d). reflexivity.
    + rewrite E. exists v. split; [exact G|]. apply attribute_list_In. left. split; assumption.
    + rewrite E. exists (VList l). split; [exact G|]. apply attribute_list_In. right. exists l. repeat split; assumption.
  - intros [v [G I]]. destruct (lookup ["session"; "apply"] (VDict bgp)) as [w|] eqn:E.
    + destruct w as [| | | | |d].
      6: { apply attribute_list_In in I. destruct I as [[V I]|[l [V [N I]]]].
           - exact (ap_all _ _ _ d v E G V I).
           - subst v. exact (ap_list _ _ _ d l E G N I). }
      all: assert (kind = "ebgp" /\ v = VNull) as [K V]
        by (cbn [dget] in G; destruct (String.eqb kind "ebgp") eqn:K; [apply String.eqb_eq in K; injection G as G; auto | discriminate G]);
        subst; apply ap_default; [rewrite E; intros d H; discriminate H | reflexivity | exact I].
    + assert (kind = "ebgp" /\ v = VNull) as [K V]
        by (cbn [dget] in G; destruct (String.eqb kind "ebgp") eqn:K; [apply String.eqb_eq in K; injection G as G; auto | discriminate G]);
        subst; apply ap_default; [rewrite E; intros d H; discriminate H | reflexivity | exact I].
Qed.

Definition cleaned (g : ng) : ng := if listed g then set_d g (fold_left (fun d a => dpop a d) attrs (g_d g)) else g.

Lemma cleaned_get : forall g k, dget k (g_d (cleaned g)) = if listed g && memS k attrs then None else dget k (g_d g).
Proof.
  intros g k. unfold cleaned. destruct (listed g); [|reflexivity]. cbn [set_d g_d andb]. apply dget_pops.
Qed.

Lemma cleaned_same : forall g, plain attrs ->
  g_vrf (cleaned g) = g_vrf g /\ g_name (cleaned g) = g_name g /\ g_type (cleaned g) = g_type g /\
  dget "ifindex" (g_d (cleaned g)) = dget "ifindex" (g_d g) /\ (forall x, addr (cleaned g) x <-> addr g x).
Proof.
  intros g P. assert (forall k, In k ["name"; "type"; "ifindex"; "ipv4"; "ipv6"] -> dget k (g_d (cleaned g)) = dget k (g_d g)) as Q.
  { intros k I. rewrite cleaned_get. apply P in I. apply memS_false in I. rewrite I, andb_false_r. reflexivity. }
  unfold g_name, g_type, str_of, addr. rewrite !Q by (cbn; tauto).
  refine (conj _ (conj eq_refl (conj eq_refl (conj eq_refl _)))).
  - unfold cleaned. destruct (listed g); reflexivity.
  - intro x. tauto.
Qed.

(* attributes to apply are attributes of the plugin *)
Definition known (n : snode) : Prop := forall kind a, applied (s_bgp n) kind a -> In a attrs.

Lemma plain_list : forall n kind v, plain attrs -> known n ->
  dget kind (session_apply (s_bgp n)) = Some v -> plain (attribute_list attrs v).
Proof.
  intros n kind v P K G a I J. apply (P a I). apply (K kind). apply applied_list. exists v. split; assumption.
Qed.

(* the two steps, with the lists of attributes *)
Definition ilist (n : snode) : list string :=
  match dget "ibgp" (session_apply (s_bgp n)) with Some v => attribute_list attrs v | None => [] end.
Definition elist (n : snode) : list string :=
  match dget "ebgp" (session_apply (s_bgp n)) with Some v => attribute_list attrs v | None => [] end.

Lemma ilist_In : forall n a, In a (ilist n) <-> applied (s_bgp n) "ibgp" a.
Proof.
  intros n a. rewrite applied_list. unfold ilist. destruct (dget "ibgp" (session_apply (s_bgp n))) as [v|].
  - split; [intro I; exists v; split; [reflexivity | exact I] | intros [w [H I]]; injection H as H; subst; exact I].
  - split; [intros [] | intros [w [H _]]; discriminate H].
Qed.
Lemma elist_In : forall n a, In a (elist n) <-> applied (s_bgp n) "ebgp" a.
Proof.
  intros n a. rewrite applied_list. unfold elist. destruct (dget "ebgp" (session_apply (s_bgp n))) as [v|].
  - split; [intro I; exists v; split; [reflexivity | exact I] | intros [w [H I]]; injection H as H; subst; exact I].
  - split; [intros [] | intros [w [H _]]; discriminate H].
Qed.

Lemma apply_attributes_nil : forall node bgp intf d ok clear,
  apply_attributes feat provider node bgp intf [] d ok clear = (d, ok, [], clear, false).
Proof. reflexivity. Qed.

Lemma apply_all_nil : forall node bgp intf sel stop gs ok clear,
  apply_all feat provider node bgp intf [] sel stop gs ok clear = (gs, ok, [], clear, false).
Proof.
  intros node bgp intf sel stop. induction gs as [|g r IH]; intros ok clear; [reflexivity|].
  cbn [apply_all apply_attributes]. rewrite andb_true_r, IH. destruct g as [v d]. unfold set_d. cbn [g_vrf g_d].
  destruct (sel (mk_ng v d) && (ok || negb stop)); reflexivity.
Qed.

Lemma apply_intfs_nil : forall node bgp is gs clear,
  apply_intfs feat provider node bgp [] is gs clear = (gs, [], clear, false).
Proof.
  intros node bgp. induction is as [|i r IH]; intros gs clear; [reflexivity|].
  cbn [apply_intfs]. rewrite apply_all_nil, IH. reflexivity.
Qed.

Lemma copy_local_lists : forall node n,
  copy_local attrs feat provider node n =
  let '(g1, ok, e1, c1, u1) := apply_all feat provider node (s_bgp n) None (ilist n) ibgp true (s_ngb n) true (s_clear n) in
  let '(g2, e2, c2, u2) := if ok then apply_intfs feat provider node (s_bgp n) (elist n) (s_intf n) g1 c1 else (g1, [], c1, false) in
  (mk_sn (s_module n) (s_bgp n) (s_intf n) g2 (s_config n || u1 || u2) c2 (s_secrets n) (s_rsc n), e1 ++ e2).
Proof.
  intros node n. unfold copy_local, ilist, elist.
  destruct (dget "ibgp" (session_apply (s_bgp n))) as [v|]; [|rewrite apply_all_nil];
  destruct (dget "ebgp" (session_apply (s_bgp n))) as [w|].
  - reflexivity.
  - destruct (apply_all feat provider node (s_bgp n) None (attribute_list attrs v) ibgp true (s_ngb n) true (s_clear n)) as [[[[g1 ok] e1] c1] u1].
    destruct ok; [rewrite apply_intfs_nil|]; reflexivity.
  - reflexivity.
  - rewrite apply_intfs_nil. reflexivity.
Qed.

(* a session to which an attribute is applied *)
Lemma session_value_ibgp : forall n g a v, g_type g = "ibgp" ->
  (session_value n g a (Some v) <-> In a (ilist n) /\ wanted (s_bgp n) None a (Some v)).
Proof.
  intros n g a v T. rewrite ilist_In. split.
  - intro H. inversion H as [o T' A W|i o T' A I W|Q]; subst; [split; assumption | congruence].
  - intros [A W]. exact (sv_ibgp n g a (Some v) T A W).
Qed.

Lemma session_value_ebgp : forall n g a v, g_type g = "ebgp" ->
  (session_value n g a (Some v) <-> In a (elist n) /\ exists i, session_intf n g i /\ wanted (s_bgp n) (Some (i_bgp i)) a (Some v)).
Proof.
  intros n g a v T. rewrite elist_In. split.
  - intro H. inversion H as [o T' A W|i o T' A I W|Q]; subst; [congruence | split; [assumption | exists i; split; assumption]].
  - intros [A [i [I W]]]. exact (sv_ebgp n g a i (Some v) T A I W).
Qed.

Lemma session_value_type : forall n g a v, session_value n g a (Some v) -> g_type g = "ibgp" \/ g_type g = "ebgp".
Proof. intros n g a v H. inversion H; subst; auto. Qed.

Lemma cleaned_value : forall n g a o, plain attrs -> (session_value n (cleaned g) a o <-> session_value n g a o).
Proof.
  intros n g a o P. destruct (cleaned_same g P) as [V [_ [T [I _]]]].
  assert (forall i, session_intf n (cleaned g) i <-> session_intf n g i) as S.
  { intro i. unfold session_intf. rewrite V, I. tauto. }
  split; intro H; inversion H as [o' T' A W|i o' T' A I' W|Q]; subst.
  - apply sv_ibgp; [rewrite <- T; exact T' | exact A | exact W].
  - apply sv_ebgp with (i := i); [rewrite <- T; exact T' | exact A | apply S; exact I' | exact W].
  - apply sv_not. rewrite T in Q. destruct Q as [Q|[Q [R|R]]]; [left; exact Q | right; split; [exact Q | left; exact R]|].
    right. split; [exact Q|]. right. intros i X. apply S in X. exact (R i X).
  - apply sv_ibgp; [rewrite T; exact T' | exact A | exact W].
  - apply sv_ebgp with (i := i); [rewrite T; exact T' | exact A | apply S; exact I' | exact W].
  - apply sv_not. rewrite T. destruct Q as [Q|[Q [R|R]]]; [left; exact Q | right; split; [exact Q | left; exact R]|].
    right. split; [exact Q|]. right. intros i X. apply S in X. exact (R i X).
Qed.

Lemma cleanup_fields : forall n,
  s_ngb (cleanup_attributes attrs n) = map cleaned (s_ngb n) /\ s_bgp (cleanup_attributes attrs n) = s_bgp n /\
  s_intf (cleanup_attributes attrs n) = s_intf n /\ s_clear (cleanup_attributes attrs n) = s_clear n /\
  s_config (cleanup_attributes attrs n) = s_config n /\ s_module (cleanup_attributes attrs n) = s_module n /\
  ilist (cleanup_attributes attrs n) = ilist n /\ elist (cleanup_attributes attrs n) = elist n /\
  s_secrets (cleanup_attributes attrs n) = s_secrets n.
Proof. intro n. repeat split. Qed.

(* everything done with the sessions of a node *)
Lemma copy_local_spec : forall node n n' e,
  plain attrs -> known n -> NoDup (map i_index (s_intf n)) ->
  copy_local attrs feat provider node (cleanup_attributes attrs n) = (n', e) ->
  (e = [] <-> forall g a v, In g (s_ngb n) -> session_value n g a (Some v) -> supported node a) /\
  (forall x, In x e -> exists g a v, In g (s_ngb n) /\ session_value n g a (Some v) /\ ~ supported node a /\
     (x = ESupport node a (g_name g) \/ x = EProvider node a)) /\
  (NoDup (s_clear n) -> NoDup (s_clear n')) /\
  (e = [] ->
     s_ngb n' = map (fun g => if ibgp g then upd (s_bgp n) None (ilist n) (cleaned g)
                              else upd_intf (s_bgp n) (elist n) (s_intf n) (cleaned g)) (s_ngb n) /\
     (s_config n' = true <-> s_config n = true \/ exists g a v, In g (s_ngb n) /\ session_value n g a (Some v)) /\
     (forall x, In x (s_clear n') <-> In x (s_clear n) \/
        exists g a v, In g (s_ngb n) /\ session_value n g a (Some v) /\ addr g x)).
Proof.
  intros node n n' e P K ND H. rewrite copy_local_lists in H.
  destruct (cleanup_fields n) as [F1 [F2 [F3 [F4 [F5 [F6 [F7 [F8 F9]]]]]]]].
  rewrite F1, F2, F3, F4, F5, F6, F7, F8, F9 in H.
  assert (plain (ilist n)) as PI.
  { intros a I J. apply ilist_In in J. exact (P a I (K _ _ J)). }
  assert (plain (elist n)) as PE.
  { intros a I J. apply elist_In in J. exact (P a I (K _ _ J)). }
  destruct (apply_all feat provider node (s_bgp n) None (ilist n) ibgp true (map cleaned (s_ngb n)) true (s_clear n))
    as [[[[g1 ok] e1] c1] u1] eqn:A.
  destruct (apply_all_spec _ _ _ _ _ _ _ _ _ _ _ _ _ _ A) as [O [ND1 [X1 [E1 Q1]]]]; try (apply PI; cbn; tauto).
  specialize (E1 (or_intror eq_refl)). cbn [andb] in O.
  assert (forall g, g_type (cleaned g) = g_type g) as CT by (intro g; apply (cleaned_same g P)).
  assert (forall g, g_name (cleaned g) = g_name g) as CN by (intro g; apply (cleaned_same g P)).
  assert (forall g x, addr (cleaned g) x <-> addr g x) as CA by (intro g; apply (cleaned_same g P)).
  assert (forall g, ibgp (cleaned g) = ibgp g) as CI by (intro g; unfold ibgp; rewrite CT; reflexivity).
  assert (forall i g, on_intf i (cleaned g) = on_intf i g) as CO.
  { intros i g. destruct (cleaned_same g P) as [V [_ [T [I _]]]]. unfold on_intf, ebgp. rewrite V, T, I. reflexivity. }
  assert (e1 = [] <-> forall g a v, In g (s_ngb n) -> g_type g = "ibgp" -> session_value n g a (Some v) -> supported node a) as S1.
  { rewrite E1. split.
    - intros Q g a v I T V. apply (session_value_ibgp n g a v T) in V. destruct V as [V1 V2].
      refine (Q (cleaned g) a (in_map cleaned _ _ I) _ V1 _); [rewrite CI; apply ibgp_type; exact T|].
      apply attr_value_Some in V2. rewrite V2. discriminate.
    - intros Q h a I S J V. apply in_map_iff in I. destruct I as [g [<- I]]. rewrite CI in S. apply ibgp_type in S.
      destruct (attr_value (s_bgp n) None a) as [v|] eqn:W; [|congruence].
      apply (Q g a v I S). apply session_value_ibgp; [exact S|]. split; [exact J | apply attr_value_Some; exact W]. }
  assert (forall x, In x e1 -> exists g a v, In g (s_ngb n) /\ session_value n g a (Some v) /\ ~ supported node a /\
     (x = ESupport node a (g_name g) \/ x = EProvider node a)) as Y1.
  { intros x I. destruct (X1 x I) as [h [a [v [J [S [L [V [N W]]]]]]]]. apply in_map_iff in J. destruct J as [g [<- J]].
    rewrite CN in W. rewrite CI in S. exists g, a, v. split; [exact J|]. split; [|split; assumption].
    apply session_value_ibgp; [apply ibgp_type; exact S|]. split; [exact L | apply attr_value_Some; exact V]. }
  destruct e1 as [|x0 e1].
  - cbn [nil] in O. subst ok. destruct (Q1 (or_intror (conj eq_refl eq_refl))) as [G1 [U1 C1]].
    destruct (apply_intfs feat provider node (s_bgp n) (elist n) (s_intf n) g1 c1) as [[[g2 e2] c2] u2] eqn:R.
    injection H as <- <-. cbn [s_clear s_config s_ngb app].
    destruct (apply_intfs_spec _ _ _ _ _ _ _ _ _ _ PE R) as [G2 [U2 [ND2 [E2 [X2 C2]]]]].
    set (step := fun g => if ibgp g then upd (s_bgp n) None (ilist n) g else g) in G1.
    assert (forall i g, on_intf i (step (cleaned g)) = on_intf i g) as SO.
    { intros i g. unfold step. destruct (ibgp (cleaned g)); [rewrite on_intf_upd by exact PI|]; apply CO. }
    assert (forall g, In g (s_ngb n) -> In (step (cleaned g)) g1) as IG.
    { intros g I. rewrite G1, map_map. apply (in_map (fun g => step (cleaned g))). exact I. }
    assert (forall h, In h g1 -> exists g, In g (s_ngb n) /\ h = step (cleaned g)) as GI.
    { intros h I. rewrite G1, map_map in I. apply in_map_iff in I. destruct I as [g [I J]]. exists g. split; [exact J | symmetry; exact I]. }
    assert (forall g, g_name (step (cleaned g)) = g_name g) as SN.
    { intro g. unfold step. destruct (ibgp (cleaned g)); [|apply CN].
      rewrite <- (CN g). apply (upd_same (s_bgp n) None (ilist n) (cleaned g) PI). }
    assert (forall g x, addr (step (cleaned g)) x <-> addr g x) as SA.
    { intros g x. rewrite <- (CA g x). unfold step. destruct (ibgp (cleaned g)); [|tauto].
      destruct (upd_same (s_bgp n) None (ilist n) (cleaned g) PI) as [_ [_ [_ [_ [B4 B6]]]]]. unfold addr. rewrite B4, B6. tauto. }
    assert (forall i g a, In i (s_intf n) -> on_intf i g = true -> In a (elist n) ->
              forall v, attr_value (s_bgp n) (Some (i_bgp i)) a = Some v -> session_value n g a (Some v)) as SV.
    { intros i g a I OI J v V. apply (on_intf_session n g i I) in OI. destruct OI as [T S].
      apply session_value_ebgp; [exact T|]. split; [exact J|]. exists i. split; [exact S | apply attr_value_Some; exact V]. }
    assert (forall g a v, g_type g = "ebgp" -> session_value n g a (Some v) ->
              exists i, In i (s_intf n) /\ on_intf i g = true /\ In a (elist n) /\ attr_value (s_bgp n) (Some (i_bgp i)) a = Some v) as VS.
    { intros g a v T V. apply (session_value_ebgp n g a v T) in V. destruct V as [J [i [S W]]].
      exists i. split; [apply S|]. split; [apply (on_intf_session n g i); [apply S | split; assumption]|].
      split; [exact J | apply attr_value_Some; exact W]. }
    assert (forall i g, on_intf i g = true -> g_type g = "ebgp") as OT.
    { intros i g OI. unfold on_intf in OI. rewrite !andb_true_iff in OI. apply ebgp_type. apply OI. }
    refine (conj _ (conj _ (conj (fun N => ND2 (ND1 N)) _))).
    + rewrite E2. split.
      * intros Q g a v I V. destruct (session_value_type _ _ _ _ V) as [T|T]; [exact (proj1 S1 eq_refl g a v I T V)|].
        destruct (VS g a v T V) as [i [J [OI [L W]]]].
        refine (Q i (step (cleaned g)) a J (IG g I) _ L _); [rewrite SO; exact OI | rewrite W; discriminate].
      * intros Q i h a J I OI L W. destruct (GI h I) as [g [I2 ->]]. rewrite SO in OI.
        destruct (attr_value (s_bgp n) (Some (i_bgp i)) a) as [v|] eqn:V; [|congruence].
        exact (Q g a v I2 (SV i g a J OI L v V)).
    + intros x I. destruct (X2 x I) as [i [h [a [v [J [L [OI [M [V [N W]]]]]]]]]]. destruct (GI h L) as [g [I2 ->]].
      rewrite SO in OI. rewrite SN in W. exists g, a, v. exact (conj I2 (conj (SV i g a J OI M v V) (conj N W))).
    + intros _. refine (conj _ (conj _ _)).
      * rewrite G2, G1, !map_map. apply map_ext. intro g. unfold step. rewrite CI.
        destruct (ibgp g) eqn:IB; [|reflexivity].
        destruct (upd_intf_one (s_bgp n) (elist n) (s_intf n) (upd (s_bgp n) None (ilist n) (cleaned g)) PE ND) as [[i [J [OI _]]]|[_ E]]; [|exact E].
        exfalso. rewrite on_intf_upd in OI by exact PI. rewrite CO in OI. apply OT in OI. apply ibgp_type in IB. congruence.
      * rewrite !orb_true_iff, U1, U2. split.
        -- intros [[C|C]|C]; [left; exact C | right | right].
           ++ apply andb_true_iff in C. destruct C as [C U]. apply existsb_exists in C. destruct C as [h [I S]].
              apply in_map_iff in I. destruct I as [g [<- I]]. rewrite CI in S. apply ibgp_type in S.
              apply used_In in U. destruct U as [a [v [L W]]]. exists g, a, v. split; [exact I|].
              apply session_value_ibgp; [exact S | split; assumption].
           ++ apply existsb_exists in C. destruct C as [i [J C]]. apply andb_true_iff in C. destruct C as [C U].
              apply existsb_exists in C. destruct C as [h [I OI]]. destruct (GI h I) as [g [I2 ->]]. rewrite SO in OI.
              apply used_In in U. destruct U as [a [v [L W]]]. exists g, a, v. split; [exact I2|].
              apply (SV i g a J OI L). apply attr_value_Some. exact W.
        -- intros [C|[g [a [v [I V]]]]]; [left; left; exact C|].
           destruct (session_value_type _ _ _ _ V) as [T|T].
           ++ left. right. apply (session_value_ibgp n g a v T) in V. destruct V as [L W]. apply andb_true_iff. split.
              ** apply existsb_exists. exists (cleaned g). split; [apply in_map; exact I | rewrite CI; apply ibgp_type; exact T].
              ** apply used_In. exists a, v. split; assumption.
           ++ right. destruct (VS g a v T V) as [i [J [OI [L W]]]]. apply existsb_exists. exists i. split; [exact J|].
              apply andb_true_iff. split.
              ** apply existsb_exists. exists (step (cleaned g)). split; [exact (IG g I) | rewrite SO; exact OI].
              ** apply used_In. exists a, v. split; [exact L | apply attr_value_Some; exact W].
      * intro x. rewrite C2, C1. split.
        -- intros [[C|[h [I [S [U D]]]]]|[i [h [J [I [OI [U D]]]]]]]; [left; exact C | right | right].
           ++ apply in_map_iff in I. destruct I as [g [<- I]]. rewrite CI in S. apply ibgp_type in S. apply (proj1 (CA g x)) in D.
              apply used_In in U. destruct U as [a [v [L W]]]. exists g, a, v. split; [exact I|]. split; [|exact D].
              apply session_value_ibgp; [exact S | split; assumption].
           ++ destruct (GI h I) as [g [I2 ->]]. rewrite SO in OI. apply (proj1 (SA g x)) in D.
              apply used_In in U. destruct U as [a [v [L W]]]. exists g, a, v. split; [exact I2|]. split; [|exact D].
              apply (SV i g a J OI L). apply attr_value_Some. exact W.
        -- intros [C|[g [a [v [I [V D]]]]]]; [left; left; exact C|].
           destruct (session_value_type _ _ _ _ V) as [T|T].
           ++ left. right. apply (session_value_ibgp n g a v T) in V. destruct V as [L W]. exists (cleaned g).
              refine (conj (in_map _ _ _ I) (conj _ (conj _ _))); [rewrite CI; apply ibgp_type; exact T | | apply CA; exact D].
              apply used_In. exists a, v. split; assumption.
           ++ right. destruct (VS g a v T V) as [i [J [OI [L W]]]]. exists i, (step (cleaned g)).
              refine (conj J (conj (IG g I) (conj _ (conj _ _)))); [rewrite SO; exact OI | | apply SA; exact D].
              apply used_In. exists a, v. split; [exact L | apply attr_value_Some; exact W].
  - cbn [nil] in O. subst ok. injection H as <- <-. cbn [app]. rewrite app_nil_r. cbn [s_clear].
    refine (conj _ (conj Y1 (conj ND1 _))).
    + split; [intro X; discriminate X|]. intro Q. apply S1. intros g a v I _ V. exact (Q g a v I V).
    + intro X. discriminate X.
Qed.

(* ---------- C150 ---------- *)

(* If no error is reported, every session has exactly the attributes it should have: those of its
   interface or of the node if they are applied to that kind of sessions. Everything else about the
   sessions is unchanged. *)
Theorem session_attributes_exact : forall node n n',
  plain attrs -> known n -> NoDup (map i_index (s_intf n)) ->
  copy_local attrs feat provider node (cleanup_attributes attrs n) = (n', []) ->
  length (s_ngb n') = length (s_ngb n) /\
  forall k g, nth_error (s_ngb n) k = Some g ->
    exists g', nth_error (s_ngb n') k = Some g' /\ g_vrf g' = g_vrf g /\
      (forall a, ~ In a attrs -> dget a (g_d g') = dget a (g_d g)) /\
      (forall a, In a attrs -> g_type g = "ibgp" \/ g_type g = "ebgp" -> session_value n g a (dget a (g_d g'))) /\
      (g_type g <> "ibgp" -> g_type g <> "ebgp" -> g' = g).
Proof.
  intros node n n' P K ND H.
  destruct (copy_local_spec _ _ _ _ P K ND H) as [_ [_ [_ Q]]]. destruct (Q eq_refl) as [G _]. clear Q.
  assert (plain (ilist n)) as PI. { intros a I J. apply ilist_In in J. exact (P a I (K _ _ J)). }
  assert (plain (elist n)) as PE. { intros a I J. apply elist_In in J. exact (P a I (K _ _ J)). }
  rewrite G, map_length. split; [reflexivity|]. intros k g N.
  eexists. split; [rewrite nth_error_map, N; reflexivity|]. cbn [option_map].
  assert (forall a, ~ In a attrs -> dget a (g_d (cleaned g)) = dget a (g_d g)) as CG.
  { intros a I. rewrite cleaned_get. apply memS_false in I. rewrite I, andb_false_r. reflexivity. }
  destruct (cleaned_same g P) as [CV [_ [CT [CX _]]]].
  destruct (ibgp g) eqn:IB.
  - pose proof IB as T. apply ibgp_type in T. destruct (upd_same (s_bgp n) None (ilist n) (cleaned g) PI) as [UV _].
    refine (conj _ (conj _ (conj _ _))).
    + rewrite UV. exact CV.
    + intros a I. unfold upd, set_d. cbn [g_d]. rewrite adata_keeps; [exact (CG a I)|].
      intro J. apply ilist_In in J. exact (I (K _ _ J)).
    + intros a I _. unfold upd, set_d. cbn [g_d]. rewrite adata_get.
      assert (dget a (g_d (cleaned g)) = None) as E.
      { rewrite cleaned_get. apply memS_true in I. rewrite I. unfold listed. rewrite IB. reflexivity. }
      rewrite E. destruct (memS a (ilist n)) eqn:M.
      * apply memS_true in M. apply ilist_In in M. apply sv_ibgp; [exact T | exact M|].
        pose proof (attr_value_wanted (s_bgp n) None a) as W. destruct (attr_value (s_bgp n) None a); exact W.
      * apply memS_false in M. apply sv_not. left. split; [exact T|]. intro X. apply M. apply ilist_In. exact X.
    + intro X. contradiction.
  - assert (g_type g <> "ibgp") as T. { intro T. apply ibgp_type in T. congruence. }
    assert (forall i, on_intf i (cleaned g) = on_intf i g) as CO.
    { intro i. unfold on_intf, ebgp. rewrite CV, CT, CX. reflexivity. }
    destruct (upd_intf_one (s_bgp n) (elist n) (s_intf n) (cleaned g) PE ND) as [[i [I [OI [E U]]]]|[Q E]]; rewrite E; clear E.
    + rewrite CO in OI. apply (on_intf_session n g i I) in OI. destruct OI as [T2 SI].
      destruct (upd_same (s_bgp n) (Some (i_bgp i)) (elist n) (cleaned g) PE) as [UV _].
      refine (conj _ (conj _ (conj _ _))).
      * rewrite UV. exact CV.
      * intros a J. unfold upd, set_d. cbn [g_d]. rewrite adata_keeps; [exact (CG a J)|].
        intro L. apply elist_In in L. exact (J (K _ _ L)).
      * intros a J _. unfold upd, set_d. cbn [g_d]. rewrite adata_get.
        assert (dget a (g_d (cleaned g)) = None) as E.
        { rewrite cleaned_get. apply memS_true in J. rewrite J. unfold listed. apply ebgp_type in T2. rewrite T2, orb_true_r. reflexivity. }
        rewrite E. destruct (memS a (elist n)) eqn:M.
        -- apply memS_true in M. apply elist_In in M. apply sv_ebgp with (i := i); [exact T2 | exact M | exact SI|].
           pose proof (attr_value_wanted (s_bgp n) (Some (i_bgp i)) a) as W. destruct (attr_value (s_bgp n) (Some (i_bgp i)) a); exact W.
        -- apply memS_false in M. apply sv_not. right. split; [exact T2|]. left. intro X. apply M. apply elist_In. exact X.
      * intros _ X. contradiction.
    + refine (conj CV (conj CG (conj _ _))).
      * intros a J [T2|T2]; [contradiction|].
        assert (dget a (g_d (cleaned g)) = None) as E.
        { rewrite cleaned_get. apply memS_true in J. rewrite J. unfold listed. apply ebgp_type in T2. rewrite T2, orb_true_r. reflexivity. }
        rewrite E. apply sv_not. right. split; [exact T2|]. right. intros i SI.
        assert (on_intf i g = true) as OI by (apply (on_intf_session n g i); [apply SI | split; assumption]).
        rewrite <- CO, Q in OI by apply SI. discriminate OI.
      * intros _ T2. unfold cleaned, listed. rewrite IB. destruct (ebgp g) eqn:EB; [apply ebgp_type in EB; contradiction|]. reflexivity.
Qed.

(* Errors are reported if and only if a device does not support an attribute of one of its sessions. *)
Theorem session_errors_exact : forall node n n' e,
  plain attrs -> known n -> NoDup (map i_index (s_intf n)) ->
  copy_local attrs feat provider node (cleanup_attributes attrs n) = (n', e) ->
  (e = [] <-> forall g a v, In g (s_ngb n) -> session_value n g a (Some v) -> supported node a) /\
  (forall x, In x e -> exists g a v, In g (s_ngb n) /\ session_value n g a (Some v) /\ ~ supported node a /\
     (x = ESupport node a (g_name g) \/ x = EProvider node a)).
Proof.
  intros node n n' e P K ND H. destruct (copy_local_spec _ _ _ _ P K ND H) as [A [B _]]. split; assumption.
Qed.

(* The plugin template is used, and sessions are cleared, exactly when an attribute is applied. *)
Theorem session_clear_exact : forall node n n',
  plain attrs -> known n -> NoDup (map i_index (s_intf n)) -> NoDup (s_clear n) ->
  copy_local attrs feat provider node (cleanup_attributes attrs n) = (n', []) ->
  (s_config n' = true <-> s_config n = true \/ exists g a v, In g (s_ngb n) /\ session_value n g a (Some v)) /\
  (forall x, In x (s_clear n') <-> In x (s_clear n) \/
     exists g a v, In g (s_ngb n) /\ session_value n g a (Some v) /\
       (dget "ipv4" (g_d g) = Some x \/ dget "ipv6" (g_d g) = Some x)) /\
  NoDup (s_clear n').
Proof.
  intros node n n' P K ND NC H. destruct (copy_local_spec _ _ _ _ P K ND H) as [_ [_ [C Q]]].
  destruct (Q eq_refl) as [_ [A B]]. split; [exact A|]. split; [exact B | exact (C NC)].
Qed.

(* ---------- C151 ---------- *)

(* If no error is reported for a node, its TCP-AO sessions have passwords among the secrets of the
   node, and the node uses the BFD module if one of its sessions uses BFD. *)
Theorem session_checks_complete : forall node n n',
  plain attrs -> known n -> NoDup (map i_index (s_intf n)) ->
  In "tcp_ao" attrs -> In "password" attrs -> In "bfd" attrs ->
  local_part attrs feat provider node n = (n', []) ->
  forall g, In g (s_ngb n) ->
    (forall v, session_value n g "tcp_ao" (Some v) -> exists p, session_value n g "password" (Some p) /\ In p (s_secrets n')) /\
    (forall v, session_value n g "bfd" (Some v) -> In "bfd" (s_module n)).
Proof.
  intros node n n' P K ND IT IP IB H g I. unfold local_part in H.
  destruct (copy_local attrs feat provider node (cleanup_attributes attrs n)) as [n1 e1] eqn:E1.
  destruct (tcpao node n1) as [n2 e2] eqn:E2. destruct (bfd_requests node n2) as [n3 e3] eqn:E3.
  injection H as -> H. apply app_eq_nil in H. destruct H as [-> H]. apply app_eq_nil in H. destruct H as [-> ->].
  destruct (session_attributes_exact _ _ _ P K ND E1) as [_ Q].
  assert (s_module n1 = s_module n) as M1.
  { unfold copy_local in E1.
    repeat match type of E1 with context [let '(_, _) := ?X in _] => destruct X end. injection E1 as <-. reflexivity. }
  assert (s_module n2 = s_module n) as M2 by (unfold tcpao in E2; injection E2 as <-; exact M1).
  assert (s_secrets n' = s_secrets n2) as SE by (unfold bfd_requests in E3; injection E3 as <-; reflexivity).
  apply In_nth_error in I. destruct I as [k I]. destruct (Q k g I) as [g' [I' [_ [KP [SV SN]]]]].
  assert (session g -> session g') as SS.
  { unfold session, g_type, str_of. rewrite KP by (apply P; cbn; tauto). tauto. }
  destruct (tcpao_secrets_exact _ _ _ _ E2) as [N2 [S2 [_ X2]]].
  destruct (bfd_requests_exact _ _ _ _ E3) as [X3 _].
  assert (forall a v w, session_value n g a v -> session_value n g a (Some w) -> v = Some w) as DET.
  { intros a v w A B. destruct (session_value_type _ _ _ _ B) as [T|T].
    - apply (session_value_ibgp n g a w T) in B. destruct B as [B1 B2].
      inversion A as [o T' A' W|i o T' A' S' W|X]; subst; [exact (wanted_det _ _ _ _ _ W B2) | congruence|].
      destruct X as [[_ X]|[X _]]; [|congruence]. destruct X. apply ilist_In. exact B1.
    - apply (session_value_ebgp n g a w T) in B. destruct B as [B1 [i [B2 B3]]].
      inversion A as [o T' A' W|j o T' A' S' W|X]; subst; [congruence | |].
      + assert (i = j) as ->; [|exact (wanted_det _ _ _ _ _ W B3)].
        destruct S' as [J1 [_ J2]]. destruct B2 as [J3 [_ J4]]. rewrite J2 in J4. injection J4 as J4.
        clear -ND J1 J3 J4. induction (s_intf n) as [|z r IH]; [destruct J1|]. cbn [map] in ND.
        inversion ND as [|y l NI NR]; subst. destruct J1 as [J1|J1]; destruct J3 as [J3|J3].
        * congruence.
        * subst z. destruct NI. rewrite J4. apply in_map. exact J3.
        * subst z. destruct NI. rewrite <- J4. apply in_map. exact J1.
        * exact (IH NR J3 J1).
      + destruct X as [[X _]|[_ [X|X]]]; [congruence | |].
        * destruct X. apply elist_In. exact B1.
        * destruct (X i B2). }
  split.
  - intros v V. pose proof (session_value_type _ _ _ _ V) as T.
    pose proof (DET _ _ _ (SV "tcp_ao" IT T) V) as G.
    destruct (dget "password" (g_d g')) as [p|] eqn:W.
    + exists p. split; [rewrite <- W; exact (SV "password" IP T)|]. rewrite SE. apply S2. right. exists g'.
      split; [exact (nth_error_In _ _ I')|]. split; [exact (SS T)|]. split; [congruence | exact W].
    + exfalso. apply (in_nil (a := ENoPassword node (g_name g'))). apply X2. exists g'.
      split; [exact (nth_error_In _ _ I')|]. split; [exact (SS T)|]. split; [congruence|]. split; [exact W | reflexivity].
  - intros v V. pose proof (session_value_type _ _ _ _ V) as T.
    pose proof (DET _ _ _ (SV "bfd" IB T) V) as G.
    destruct (memS "bfd" (s_module n)) eqn:M; [apply memS_true; exact M|]. apply memS_false in M.
    exfalso. apply (in_nil (a := ENoBfd node (g_name g'))). apply X3. exists g', v.
    split; [rewrite N2; exact (nth_error_In _ _ I')|]. split; [exact (SS T)|]. split; [|split; [rewrite M2; exact M | reflexivity]].
    split; [exact G|]. inversion V as [o T' A W|i o T' A S W|X]; subst; inversion W as [i' v' E [_ TR]|v' _ [_ TR]|]; subst; exact TR.
Qed.

End Session.

(* ---------- examples ---------- *)

(* the session attributes of the plugin *)
Definition ex_attrs : list string :=
  ["as_override"; "allowas_in"; "default_originate"; "password"; "passive"; "gtsm"; "timers"; "tcp_ao"; "bfd"; "remove_private_as"; "rs"].
Definition ex_feat (node a : string) : option val :=
  if String.eqb a "tcp_ao" then Some (VList [VStr "libvirt"]) else if String.eqb a "gtsm" then None else Some (VBool true).

Definition ex_ngb (name ty : string) (rest : dict val) : dict val := [("name", VStr name); ("type", VStr ty)] ++ rest.

(* a node with an IBGP neighbor and two EBGP neighbors, one of them in a VRF; BFD of the neighbors is not ours *)
Definition ex_node : snode :=
  mk_sn ["bgp"; "bfd"] [("as", VInt 65000); ("password", VStr "secret"); ("passive", VBool true)]
    [mk_si 1 None [("bfd", VBool true)]; mk_si 2 (Some "red") [("password", VStr "red"); ("tcp_ao", VBool true); ("passive", VBool false)]]
    [mk_ng None (ex_ngb "a" "ibgp" [("ipv4", VStr "10.0.0.1"); ("bfd", VBool true)]);
     mk_ng None (ex_ngb "b" "ebgp" [("ifindex", VInt 1); ("ipv4", VStr "10.1.0.2"); ("gtsm", VInt 1)]);
     mk_ng (Some "red") (ex_ngb "c" "ebgp" [("ifindex", VInt 2); ("ipv6", VStr "2001:db8::1")])]
    false [] [] false.

Example ex_plain : plain ex_attrs.
Proof. intros a I J. cbn in I. destruct I as [<-|[<-|[<-|[<-|[<-|[]]]]]]; cbn in J; intuition discriminate. Qed.
Example ex_known : known ex_attrs ex_node.
Proof.
  intros kind a H. inversion H as [N K I|d v E G V I|d l E G N I]; subst; try exact I. discriminate E.
Qed.
Example ex_intfs : NoDup (map i_index (s_intf ex_node)).
Proof. cbn. repeat constructor; cbn; intuition discriminate. Qed.

Example ex_session :
  local_part ex_attrs ex_feat "libvirt" "x" ex_node =
  (mk_sn ["bgp"; "bfd"] (s_bgp ex_node) (s_intf ex_node)
    [mk_ng None (ex_ngb "a" "ibgp" [("ipv4", VStr "10.0.0.1")]);
     mk_ng None (ex_ngb "b" "ebgp" [("ifindex", VInt 1); ("ipv4", VStr "10.1.0.2"); ("password", VStr "secret"); ("passive", VBool true); ("bfd", VBool true)]);
     mk_ng (Some "red") (ex_ngb "c" "ebgp" [("ifindex", VInt 2); ("ipv6", VStr "2001:db8::1"); ("password", VStr "red"); ("passive", VBool true); ("tcp_ao", VBool true)])]
    true [VStr "10.1.0.2"; VStr "2001:db8::1"] [VStr "red"] false, []).
Proof. vm_compute. reflexivity. Qed.

(* TCP-AO is not available with containers *)
Example ex_provider :
  snd (local_part ex_attrs ex_feat "clab" "x" ex_node) = [EProvider "x" "tcp_ao"].
Proof. vm_compute. reflexivity. Qed.

(* TCP-AO without a password, BFD without the module *)
Example ex_missing :
  snd (local_part ex_attrs ex_feat "libvirt" "x"
    (mk_sn ["bgp"] [("tcp_ao", VBool true); ("bfd", VBool true)] [mk_si 1 None []]
       [mk_ng None (ex_ngb "b" "ebgp" [("ifindex", VInt 1)])] false [] [] false)) = [ENoPassword "x" "b"; ENoBfd "x" "b"].
Proof. vm_compute. reflexivity. Qed.

(* An attribute of a node cannot be switched off on an interface: the value False of the interface is
   replaced with the value of the node. *)
Theorem session_interface_off_refuted :
  exists n i g, plain ex_attrs /\ known ex_attrs n /\ In i (s_intf n) /\ dget "passive" (i_bgp i) = Some (VBool false) /\
    In g (s_ngb (fst (copy_local ex_attrs ex_feat "libvirt" "x" (cleanup_attributes ex_attrs n)))) /\
    dget "ifindex" (g_d g) = Some (VInt (i_index i)) /\ dget "passive" (g_d g) = Some (VBool true) /\
    snd (copy_local ex_attrs ex_feat "libvirt" "x" (cleanup_attributes ex_attrs n)) = [].
Proof.
  exists ex_node, (mk_si 2 (Some "red") [("password", VStr "red"); ("tcp_ao", VBool true); ("passive", VBool false)]).
  eexists. split; [exact ex_plain|]. split; [exact ex_known|]. split; [right; left; reflexivity|]. split; [reflexivity|].
  split; [vm_compute; right; right; left; reflexivity|]. repeat split; vm_compute; reflexivity.
Qed.

Print Assumptions session_attributes_exact.
Print Assumptions session_errors_exact.
Print Assumptions session_clear_exact.
Print Assumptions tcpao_secrets_exact.
Print Assumptions bfd_requests_exact.
Print Assumptions session_checks_complete.
Print Assumptions session_interface_off_refuted.
