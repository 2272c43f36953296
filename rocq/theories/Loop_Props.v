(* Properties C171 - C172: loopback links made by plugins. *)
From Coq Require Import String Ascii ZArith Lia Bool List Sorting.Sorted.
From Verif Require Import Base Box_Model Text_Props Loop_Model.
From Verif Require Vrf_Model Vrf_Props Mhop_Model.
Import ListNotations.
Local Open Scope string_scope.
Local Open Scope list_scope.

(* ------------------------------------------------------------------ *)
(* Specification: bgp.originate                                         *)

(* entry number [k] (from zero) of a node *)
Definition entry_of (n : onode) (k : nat) (e : dict val) : Prop := on_bgp n = true /\ exists l, on_orig n = Some l /\ nth_error l k = Some e.

(* entries before entry [k] of the node at position [j] *)
Definition count (n : onode) : nat := if on_bgp n then match on_orig n with Some l => length l | None => 0 end else 0.
Definition before (nodes : list onode) (j k : nat) : nat := fold_right (fun n a => count n + a) k (firstn j nodes).

Definition link_of (node : string) (k : nat) (e : dict val) (idx : Z) (l : olink) : Prop :=
  ol_node l = node /\ ol_index l = idx /\
  ol_name l = ("BGP originate #" ++ Vrf_Model.zdec (Z.of_nat (S k)))%string /\
  ol_linkname l = ("bgp.originate." ++ node ++ "[" ++ Vrf_Model.zdec (Z.of_nat (S k)) ++ "]")%string /\
  (forall af v, dget af (ol_prefix l) = Some v <-> (af = "ipv4" \/ af = "ipv6") /\ dget af e = Some v) /\
  (forall af v, dget af (ol_addr l) = Some v <-> (af = "ipv4" \/ af = "ipv6") /\ dget af e <> None /\ v = VInt 1) /\
  (ol_adv l = true <-> dget "ipv4" e <> None \/ dget "ipv6" e <> None).

(* ------------------------------------------------------------------ *)

Lemma link_spec : forall node k idx e, link_of node k e idx (orig_link node k idx e).
Proof.
  intros node k idx e. unfold link_of, orig_link. cbn [fold_left]. replace (Z.of_nat (S k)) with (Z.of_nat k + 1)%Z by lia.
  assert (K1 : forall (af : string) (v w : val), (dget af [] = Some v) <-> False) by (intros; split; [discriminate|intros []]).
  assert (G : forall af (x : val) (d : dict val) k', dget k' (dset af x d) = if String.eqb k' af then Some x else dget k' d).
  { intros af x d k'. destruct (String.eqb_spec k' af) as [Q|Q]; [subst; apply dget_dset_same|apply dget_dset_other; exact Q]. }
  split; [destruct (dget "ipv4" e); destruct (dget "ipv6" e); reflexivity|]. split; [destruct (dget "ipv4" e); destruct (dget "ipv6" e); reflexivity|].
  split; [destruct (dget "ipv4" e); destruct (dget "ipv6" e); reflexivity|]. split; [destruct (dget "ipv4" e); destruct (dget "ipv6" e); reflexivity|].
  assert (AF : forall af, af = "ipv4" \/ af = "ipv6" \/ (af <> "ipv4" /\ af <> "ipv6")).
  { intros af. destruct (string_dec af "ipv4") as [Q|Q]; [left; exact Q|]. destruct (string_dec af "ipv6") as [Q6|Q6]; [right; left; exact Q6|]. right. right. split; assumption. }
  split; [|split].
  - intros af v. destruct (AF af) as [Q|[Q|[Q4 Q6]]].
    + subst af. destruct (dget "ipv4" e) as [a|]; destruct (dget "ipv6" e) as [b|]; cbn [ol_prefix]; rewrite ?G; cbn [String.eqb Ascii.eqb Bool.eqb dget];
        (split; [intros H; split; [left; reflexivity|exact H]|intros [_ H]; exact H]).
    + subst af. destruct (dget "ipv4" e) as [a|]; destruct (dget "ipv6" e) as [b|]; cbn [ol_prefix]; rewrite ?G; cbn [String.eqb Ascii.eqb Bool.eqb dget];
        (split; [intros H; split; [right; reflexivity|exact H]|intros [_ H]; exact H]).
    + apply String.eqb_neq in Q4, Q6. split.
      * intros H. exfalso. destruct (dget "ipv4" e) as [a|]; destruct (dget "ipv6" e) as [b|]; cbn [ol_prefix] in H; rewrite ?G, ?Q4, ?Q6 in H; discriminate H.
      * intros [[K|K] _]; subst af; discriminate.
  - intros af v. destruct (AF af) as [Q|[Q|[Q4 Q6]]].
    + subst af. destruct (dget "ipv4" e) as [a|]; destruct (dget "ipv6" e) as [b|]; cbn [ol_addr]; rewrite ?G; cbn [String.eqb Ascii.eqb Bool.eqb dget];
        (split; [intros H; first [discriminate H|injection H as H; split; [left; reflexivity|split; [discriminate|symmetry; exact H]]]
                |intros [_ [N H]]; first [subst v; reflexivity|exfalso; apply N; reflexivity]]).
    + subst af. destruct (dget "ipv4" e) as [a|]; destruct (dget "ipv6" e) as [b|]; cbn [ol_addr]; rewrite ?G; cbn [String.eqb Ascii.eqb Bool.eqb dget];
        (split; [intros H; first [discriminate H|injection H as H; split; [right; reflexivity|split; [discriminate|symmetry; exact H]]]
                |intros [_ [N H]]; first [subst v; reflexivity|exfalso; apply N; reflexivity]]).
    + apply String.eqb_neq in Q4, Q6. split.
      * intros H. exfalso. destruct (dget "ipv4" e) as [a|]; destruct (dget "ipv6" e) as [b|]; cbn [ol_addr] in H; rewrite ?G, ?Q4, ?Q6 in H; discriminate H.
      * intros [[K|K] _]; subst af; discriminate.
  - destruct (dget "ipv4" e) as [a|]; destruct (dget "ipv6" e) as [b|]; cbn [ol_adv].
    + split; [intros _; left; discriminate|reflexivity].
    + split; [intros _; left; discriminate|reflexivity].
    + split; [intros _; right; discriminate|reflexivity].
    + split; [discriminate|intros [H|H]; exfalso; apply H; reflexivity].
Qed.

Definition zseq (s : Z) (n : nat) : list Z := map (fun k => (s + Z.of_nat k)%Z) (seq 0 n).

Lemma zseq_S : forall s n, zseq s (S n) = s :: zseq (s + 1) n.
Proof.
  intros s n. unfold zseq. cbn [seq map]. f_equal; [lia|]. rewrite <- seq_shift, map_map. apply map_ext. intros k. lia.
Qed.

Lemma next_app : forall first links idx, Mhop_Model.next_linkindex first (links ++ [idx]) = (idx + 1)%Z.
Proof. intros. unfold Mhop_Model.next_linkindex. rewrite rev_app_distr. reflexivity. Qed.

Lemma links_spec : forall first node l k links, let s := Mhop_Model.next_linkindex first links in
  fst (orig_links first node k l links) = links ++ zseq s (length l) /\
  forall j, nth_error (snd (orig_links first node k l links)) j = match nth_error l j with Some e => Some (orig_link node (k + j) (s + Z.of_nat j) e) | None => None end.
Proof.
  intros first node l. induction l as [|e l IH]; intros k links; cbv zeta; cbn [orig_links].
  - split; [cbn [fst length]; unfold zseq; cbn [seq map]; rewrite app_nil_r; reflexivity|]. intros j. destruct j; reflexivity.
  - set (idx := Mhop_Model.next_linkindex first links). destruct (IH (S k) (links ++ [idx])) as [A B]. rewrite next_app in A, B.
    destruct (orig_links first node (S k) l (links ++ [idx])) as [links' ls]. cbn [fst snd] in A, B |- *. split.
    + rewrite A. cbn [length]. rewrite zseq_S, <- app_assoc. reflexivity.
    + intros [|j]; cbn [nth_error]; [replace (k + 0) with k by lia; replace (idx + Z.of_nat 0)%Z with idx by lia; reflexivity|]. rewrite B.
      destruct (nth_error l j); [|reflexivity]. replace (k + S j) with (S k + j) by lia. replace (idx + Z.of_nat (S j))%Z with (idx + 1 + Z.of_nat j)%Z by lia. reflexivity.
Qed.

Lemma links_length : forall first node l k links, length (snd (orig_links first node k l links)) = length l.
Proof.
  intros first node l. induction l as [|e l IH]; intros k links; cbn [orig_links]; [reflexivity|]. specialize (IH (S k) (links ++ [Mhop_Model.next_linkindex first links])).
  destruct (orig_links first node (S k) l (links ++ [Mhop_Model.next_linkindex first links])) as [a b]. cbn [snd length] in *. rewrite IH. reflexivity.
Qed.

Lemma next_zseq : forall first links n, Mhop_Model.next_linkindex first (links ++ zseq (Mhop_Model.next_linkindex first links) n) = (Mhop_Model.next_linkindex first links + Z.of_nat n)%Z.
Proof.
  intros first links n. destruct n as [|n]; [unfold zseq; cbn [seq map]; rewrite app_nil_r; lia|].
  set (s := Mhop_Model.next_linkindex first links). unfold zseq. rewrite seq_S, map_app, app_assoc. cbn [map]. rewrite next_app. lia.
Qed.

(* Links for the prefixes: one for every entry of every BGP node in order, with consecutive indexes. *)
Theorem originate_exact : forall first nodes links links' new nodes',
  originate first nodes links = (links', new, nodes') -> let s := Mhop_Model.next_linkindex first links in
  (forall j n k e, nth_error nodes j = Some n -> entry_of n k e ->
     exists l, nth_error new (before nodes j k) = Some l /\ link_of (on_name n) k e (s + Z.of_nat (before nodes j k)) l) /\
  length new = before nodes (length nodes) 0 /\
  links' = links ++ map ol_index new /\
  length nodes' = length nodes /\
  (forall j n, nth_error nodes j = Some n -> exists n', nth_error nodes' j = Some n' /\ on_name n' = on_name n /\ on_bgp n' = on_bgp n /\
     (0 < count n -> on_orig n' = None) /\ (count n = 0 -> n' = n)).
Proof.
  intros first nodes. induction nodes as [|n nodes IH]; intros links links' new nodes' H; cbv zeta; cbn [originate] in H.
  - injection H as H1 H2 H3. subst. split; [intros j n k e N; destruct j; discriminate N|]. split; [reflexivity|]. split; [rewrite app_nil_r; reflexivity|]. split; [reflexivity|].
    intros j n N. destruct j; discriminate N.
  - set (s := Mhop_Model.next_linkindex first links).
    assert (BS : forall j k, before (n :: nodes) (S j) k = count n + before nodes j k) by reflexivity.
    assert (SKIP : count n = 0 -> (let '(links2, new2, r2) := originate first nodes links in (links2, new2, n :: r2)) = (links', new, nodes') ->
      (forall j n0 k e, nth_error (n :: nodes) j = Some n0 -> entry_of n0 k e -> exists l, nth_error new (before (n :: nodes) j k) = Some l /\ link_of (on_name n0) k e (s + Z.of_nat (before (n :: nodes) j k)) l) /\
      length new = before (n :: nodes) (length (n :: nodes)) 0 /\ links' = links ++ map ol_index new /\ length nodes' = length (n :: nodes) /\
      (forall j n0, nth_error (n :: nodes) j = Some n0 -> exists n', nth_error nodes' j = Some n' /\ on_name n' = on_name n0 /\ on_bgp n' = on_bgp n0 /\ (0 < count n0 -> on_orig n' = None) /\ (count n0 = 0 -> n' = n0))).
    { intros C E. destruct (originate first nodes links) as [[links2 new2] r2] eqn:O. injection E as E1 E2 E3. subst links2 new2 nodes'.
      destruct (IH links links' new r2 O) as [A [B [D [F G]]]]. fold s in A. split; [|split; [|split; [|split]]].
      - intros [|j] n0 k e N EN.
        + cbn [nth_error] in N. injection N as N. subst n0. destruct EN as [E1 [l [E2 E3]]]. unfold count in C. rewrite E1, E2 in C. destruct l; [destruct k; discriminate E3|discriminate C].
        + rewrite BS, C. cbn [Nat.add]. exact (A j n0 k e N EN).
      - cbn [length]. rewrite BS, C. exact B.
      - exact D.
      - cbn [length]. rewrite F. reflexivity.
      - intros [|j] n0 N; [|exact (G j n0 N)]. cbn [nth_error] in N. injection N as N. subst n0. exists n. repeat split. intros K. lia. }
    destruct (on_bgp n) eqn:BG; [|apply SKIP; [unfold count; rewrite BG; reflexivity|exact H]].
    destruct (on_orig n) as [[|e0 l0]|] eqn:OR; [apply SKIP; [unfold count; rewrite BG, OR; reflexivity|exact H]| |apply SKIP; [unfold count; rewrite BG, OR; reflexivity|exact H]]. clear SKIP.
    set (l := e0 :: l0) in *. assert (C : count n = length l) by (unfold count; rewrite BG, OR; reflexivity).
    destruct (links_spec first (on_name n) l 0 links) as [LA LB]. pose proof (links_length first (on_name n) l 0 links) as LL. fold s in LA, LB.
    destruct (orig_links first (on_name n) 0 l links) as [links1 new1]. cbn [fst snd] in LA, LB, LL.
    destruct (originate first nodes links1) as [[links2 new2] r2] eqn:O. injection H as H1 H2 H3. subst links2 new nodes'.
    destruct (IH links1 links' new2 r2 O) as [A [B [D [F G]]]]. rewrite LA in A. unfold s in A. rewrite next_zseq in A. fold s in A.
    split; [|split; [|split; [|split]]].
    + intros [|j] n0 k e N EN.
      * cbn [nth_error] in N. injection N as N. subst n0. destruct EN as [E1 [q [E2 E3]]]. rewrite OR in E2. injection E2 as E2. subst q.
        assert (K : k < length l) by (apply nth_error_Some; rewrite E3; discriminate). change (before (n :: nodes) 0 k) with k.
        exists (orig_link (on_name n) k (s + Z.of_nat k) e). split; [|apply link_spec]. rewrite nth_error_app1 by lia. rewrite LB, E3. reflexivity.
      * destruct (A j n0 k e N EN) as [q [Q1 Q2]]. rewrite BS, C. exists q. split.
        -- rewrite nth_error_app2 by lia. replace (length l + before nodes j k - length new1) with (before nodes j k) by lia. exact Q1.
        -- replace (s + Z.of_nat (length l + before nodes j k))%Z with (s + Z.of_nat (length l) + Z.of_nat (before nodes j k))%Z by lia. exact Q2.
    + rewrite app_length. cbn [length]. rewrite BS, C, B, LL. reflexivity.
    + rewrite D, LA, map_app, app_assoc. f_equal. f_equal. clearbody s l. clear - LB LL. revert LB LL.
      generalize (on_name n) as nm. intros nm. generalize 0 as k0. revert s new1. induction l as [|e l IHl]; intros s new1 k0 LB LL.
      * destruct new1; [reflexivity|discriminate LL].
      * destruct new1 as [|x new1]; [discriminate LL|]. cbn [length]. rewrite zseq_S. cbn [map]. f_equal.
        -- specialize (LB 0). cbn [nth_error] in LB. assert (X : x = orig_link nm (k0 + 0) (s + Z.of_nat 0) e) by congruence. rewrite X. destruct (link_spec nm (k0 + 0) (s + Z.of_nat 0) e) as [_ [I _]]. rewrite I. lia.
        -- apply (IHl (s + 1)%Z new1 (S k0)).
           ++ intros j. specialize (LB (S j)). cbn [nth_error] in LB. rewrite LB. destruct (nth_error l j); [|reflexivity].
              replace (k0 + S j) with (S k0 + j) by lia. replace (s + Z.of_nat (S j))%Z with (s + 1 + Z.of_nat j)%Z by lia. reflexivity.
           ++ cbn [length] in LL. lia.
    + cbn [length]. rewrite F. reflexivity.
    + intros [|j] n0 N; [|exact (G j n0 N)]. cbn [nth_error] in N. injection N as N. subst n0. eexists. split; [reflexivity|]. cbn [on_name on_bgp on_orig].
      split; [reflexivity|]. split; [symmetry; exact BG|]. split; [reflexivity|]. intros K. rewrite C in K. unfold l in K. discriminate K.
Qed.

(* Link indexes stay unique and increasing. *)
Theorem originate_indexes : forall first nodes links links' new nodes', originate first nodes links = (links', new, nodes') ->
  StronglySorted Z.lt links -> StronglySorted Z.lt links'.
Proof.
  intros first nodes links links' new nodes' H SS. destruct (originate_exact first nodes links links' new nodes' H) as [_ [_ [L _]]].
  assert (ONE : forall node l k lk, StronglySorted Z.lt lk -> StronglySorted Z.lt (fst (orig_links first node k l lk))).
  { assert (AP : forall lk : list Z, StronglySorted Z.lt lk -> StronglySorted Z.lt (lk ++ [Mhop_Model.next_linkindex first lk])).
    { intros lk. destruct lk as [|x lk] using rev_ind; [intros _; repeat constructor|]. clear IHlk. rewrite next_app. intros S1.
      assert (LE : forall y, In y (lk ++ [x]) -> (y <= x)%Z).
      { induction lk as [|z lk IHz]; intros y Y; [destruct Y as [Y|[]]; lia|]. cbn [app] in S1, Y. apply StronglySorted_inv in S1. destruct S1 as [S1 S2].
        destruct Y as [Y|Y]; [subst y; rewrite Forall_forall in S2; specialize (S2 x ltac:(apply in_or_app; right; left; reflexivity)); lia|exact (IHz S1 y Y)]. }
      revert S1 LE. generalize (lk ++ [x]) as q. induction q as [|z q IHq]; intros S1 LE; cbn [app]; [repeat constructor|]. apply StronglySorted_inv in S1. destruct S1 as [S1 S2].
      constructor; [apply IHq; [exact S1|intros y Y; apply LE; right; exact Y]|]. apply Forall_app. split; [exact S2|]. constructor; [|constructor]. specialize (LE z (or_introl eq_refl)). lia. }
    intros node l. induction l as [|e l IH]; intros k lk S1; cbn [orig_links]; [exact S1|]. specialize (IH (S k) _ (AP lk S1)).
    destruct (orig_links first node (S k) l (lk ++ [Mhop_Model.next_linkindex first lk])) as [a b]. exact IH. }
  clear L. revert links links' new nodes' H SS. induction nodes as [|n nodes IH]; intros links links' new nodes' H SS; cbn [originate] in H; [injection H as H1 H2 H3; subst; exact SS|].
  assert (SKIP : (let '(links2, new2, r2) := originate first nodes links in (links2, new2, n :: r2)) = (links', new, nodes') -> StronglySorted Z.lt links').
  { intros E. destruct (originate first nodes links) as [[a b] c] eqn:O. injection E as E1 E2 E3. subst. exact (IH _ _ _ _ O SS). }
  destruct (on_bgp n); [|exact (SKIP H)]. destruct (on_orig n) as [[|e l]|]; [exact (SKIP H)| |exact (SKIP H)].
  specialize (ONE (on_name n) (e :: l) 0 links SS). destruct (orig_links first (on_name n) 0 (e :: l) links) as [a b]. cbn [fst] in ONE.
  destruct (originate first nodes a) as [[a2 b2] c2] eqn:O. injection H as H1 H2 H3. subst. exact (IH _ _ _ _ O ONE).
Qed.

(* ------------------------------------------------------------------ *)
(* mlag.vtep                                                            *)

Lemma string_length_app : forall a b, String.length (a ++ b)%string = String.length a + String.length b.
Proof. induction a as [|c a IH]; intros b; [reflexivity|]. cbn [append String.length]. rewrite IH. reflexivity. Qed.

Section Vtep.
Variable alloc : nat -> string.
Variable nodes : dict mnode.

(* the node of a peer group gets a loopback *)
Definition vtep_node (n : string) : Prop := exists m, dget n nodes = Some m /\ mn_vtep m <> Some false /\ mn_vxlan m = true.

(* number of peer groups among the first [j] links *)
Definition peers_before (l : list mlink) (j : nat) : nat := length (filter ml_peer (firstn j l)).

Definition shared (l : list mlink) (v : vlink) : Prop :=
  exists j x, nth_error l j = Some x /\ ml_peer x = true /\ In (vl_node v) (ml_nodes x) /\ vtep_node (vl_node v) /\
    vl_addr v = (alloc (peers_before l j) ++ "/32")%string /\
    vl_name v = ("MLAG VTEP VXLAN interface shared between " ++ String.concat " - " (ml_nodes x))%string.

Lemma peer_spec : forall a ps n v, In v (vtep_peer nodes a ps n) <->
  vl_node v = n /\ vtep_node n /\ vl_addr v = (a ++ "/32")%string /\ vl_name v = ("MLAG VTEP VXLAN interface shared between " ++ String.concat " - " ps)%string.
Proof.
  intros a ps n v. unfold vtep_peer, vtep_node. destruct (dget n nodes) as [m|].
  2:{ split; [intros []|]. intros [_ [[m [H _]] _]]. discriminate H. }
  assert (ON : mn_vtep m <> Some false -> (In v (if mn_vxlan m then [mk_vl n (a ++ "/32")%string ("MLAG VTEP VXLAN interface shared between " ++ String.concat " - " ps)%string] else []) <->
    vl_node v = n /\ (exists m0, Some m = Some m0 /\ mn_vtep m0 <> Some false /\ mn_vxlan m0 = true) /\ vl_addr v = (a ++ "/32")%string /\ vl_name v = ("MLAG VTEP VXLAN interface shared between " ++ String.concat " - " ps)%string)).
  { intros NV. destruct (mn_vxlan m) eqn:VX.
    - split.
      + intros [H|[]]. subst v. cbn [vl_node vl_addr vl_name]. split; [reflexivity|]. split; [exists m; repeat split; assumption|]. split; reflexivity.
      + intros [H1 [_ [H2 H3]]]. left. destruct v as [x y z]. cbn [vl_node vl_addr vl_name] in *. subst. reflexivity.
    - split; [intros []|]. intros [_ [[m0 [E [_ H]]] _]]. injection E as E. subst m0. rewrite VX in H. discriminate H. }
  destruct (mn_vtep m) as [[|]|] eqn:V; [apply ON; discriminate| |apply ON; discriminate].
  split; [intros []|]. intros [_ [[m0 [E [H _]]] _]]. injection E as E. subst m0. exfalso. apply H. exact V.
Qed.

(* Shared loopbacks: exactly on the nodes of peer groups that use VXLAN. *)
Theorem vtep_links_exact : forall l v, In v (vtep_links alloc nodes 0 l) <-> shared l v.
Proof.
  assert (G : forall l k v, In v (vtep_links alloc nodes k l) <->
    exists j x, nth_error l j = Some x /\ ml_peer x = true /\ In (vl_node v) (ml_nodes x) /\ vtep_node (vl_node v) /\
      vl_addr v = (alloc (k + peers_before l j) ++ "/32")%string /\
      vl_name v = ("MLAG VTEP VXLAN interface shared between " ++ String.concat " - " (ml_nodes x))%string).
  { induction l as [|x l IH]; intros k v; cbn [vtep_links].
    - split; [intros []|]. intros [j [x [H _]]]. destruct j; discriminate H.
    - assert (PB : forall j, peers_before (x :: l) (S j) = (if ml_peer x then 1 else 0) + peers_before l j).
      { intros j. unfold peers_before. cbn [firstn filter]. destruct (ml_peer x); reflexivity. }
      destruct (ml_peer x) eqn:P.
      + rewrite in_app_iff, in_flat_map, IH. split.
        * intros [[n [I H]]|[j [y [N H]]]].
          -- apply peer_spec in H. destruct H as [H1 [H2 [H3 H4]]]. subst n. exists 0, x. split; [reflexivity|]. split; [exact P|]. split; [exact I|]. split; [exact H2|].
             split; [|exact H4]. change (peers_before (x :: l) 0) with 0. replace (k + 0) with k by lia. exact H3.
          -- exists (S j), y. split; [exact N|]. rewrite PB. replace (k + (1 + peers_before l j)) with (S k + peers_before l j) by lia. exact H.
        * intros [[|j] [y [N H]]].
          -- cbn [nth_error] in N. injection N as N. subst y. destruct H as [_ [I [V [A M]]]]. left. exists (vl_node v). split; [exact I|]. apply peer_spec.
             split; [reflexivity|]. split; [exact V|]. split; [|exact M]. change (peers_before (x :: l) 0) with 0 in A. replace (k + 0) with k in A by lia. exact A.
          -- right. exists j, y. split; [exact N|]. rewrite PB in H. replace (k + (1 + peers_before l j)) with (S k + peers_before l j) in H by lia. exact H.
      + rewrite IH. split.
        * intros [j [y [N H]]]. exists (S j), y. split; [exact N|]. rewrite PB. exact H.
        * intros [[|j] [y [N H]]].
          -- cbn [nth_error] in N. injection N as N. subst y. destruct H as [H _]. rewrite P in H. discriminate H.
          -- exists j, y. split; [exact N|]. rewrite PB in H. exact H. }
  intros l v. exact (G l 0 v).
Qed.

(* The number of loopbacks: one for every such node of every peer group. *)
Theorem vtep_links_count : forall l n,
  (vtep_node n -> length (filter (fun v => String.eqb (vl_node v) n) (vtep_links alloc nodes 0 l)) =
     fold_right (fun x a => length (filter (String.eqb n) (ml_nodes x)) + a) 0 (filter ml_peer l)) /\
  (~ vtep_node n -> filter (fun v => String.eqb (vl_node v) n) (vtep_links alloc nodes 0 l) = []).
Proof.
  intros l n.
  assert (ONE : forall a ps q, length (filter (fun v => String.eqb (vl_node v) n) (flat_map (vtep_peer nodes a ps) q)) =
     match vtep_peer nodes "" [] n with [] => 0 | _ => length (filter (String.eqb n) q) end).
  { intros a ps q. induction q as [|x q IH]; cbn [flat_map filter]; [destruct (vtep_peer nodes "" [] n); reflexivity|]. rewrite filter_app, app_length, IH.
    assert (X : length (filter (fun v => String.eqb (vl_node v) n) (vtep_peer nodes a ps x)) = if String.eqb n x then (match vtep_peer nodes "" [] n with [] => 0 | _ => 1 end) else 0).
    { destruct (String.eqb_spec n x) as [Q|Q].
      - subst x. unfold vtep_peer. destruct (dget n nodes) as [m|]; [|reflexivity]. destruct (mn_vtep m) as [[|]|]; destruct (mn_vxlan m); cbn [filter vl_node]; rewrite ?String.eqb_refl; reflexivity.
      - unfold vtep_peer. assert (E : String.eqb x n = false) by (apply String.eqb_neq; intros Q2; apply Q; symmetry; exact Q2).
        destruct (dget x nodes) as [m|]; [|reflexivity]. destruct (mn_vtep m) as [[|]|]; destruct (mn_vxlan m); cbn [filter vl_node]; rewrite ?E; reflexivity. }
    rewrite X. destruct (String.eqb n x); destruct (vtep_peer nodes "" [] n); cbn [length]; reflexivity. }
  assert (ALL : forall l k, length (filter (fun v => String.eqb (vl_node v) n) (vtep_links alloc nodes k l)) =
     match vtep_peer nodes "" [] n with [] => 0 | _ => fold_right (fun x a => length (filter (String.eqb n) (ml_nodes x)) + a) 0 (filter ml_peer l) end).
  { induction l0 as [|x l0 IH]; intros k; cbn [vtep_links filter fold_right]; [destruct (vtep_peer nodes "" [] n); reflexivity|]. destruct (ml_peer x); [|apply IH].
    rewrite filter_app, app_length, ONE, IH. cbn [fold_right]. destruct (vtep_peer nodes "" [] n); reflexivity. }
  split.
  - intros VN. rewrite ALL. destruct (vtep_peer nodes "" [] n) as [|y r] eqn:V; [|reflexivity]. exfalso.
    assert (K : In (mk_vl n ("" ++ "/32") ("MLAG VTEP VXLAN interface shared between " ++ String.concat " - " [])) (vtep_peer nodes "" [] n)).
    { apply peer_spec. split; [reflexivity|]. split; [exact VN|]. split; reflexivity. }
    rewrite V in K. destruct K.
  - intros NV. destruct (filter (fun v => String.eqb (vl_node v) n) (vtep_links alloc nodes 0 l)) as [|v r] eqn:F; [reflexivity|]. exfalso.
    assert (I : In v (v :: r)) by (left; reflexivity). rewrite <- F in I. apply filter_In in I. destruct I as [I Q]. apply String.eqb_eq in Q.
    apply vtep_links_exact in I. destruct I as [j [x [_ [_ [_ [VN _]]]]]]. rewrite Q in VN. exact (NV VN).
Qed.

Lemma address_group : (forall a b, alloc a = alloc b -> a = b) -> forall l v w jv xv jw xw,
  nth_error l jv = Some xv -> ml_peer xv = true -> vl_addr v = (alloc (peers_before l jv) ++ "/32")%string ->
  nth_error l jw = Some xw -> ml_peer xw = true -> vl_addr w = (alloc (peers_before l jw) ++ "/32")%string ->
  (vl_addr v = vl_addr w <-> jv = jw).
Proof.
  intros INJ l v w jv xv jw xw NV PV AV NW PW AW. rewrite AV, AW. split; [|intros Q; subst; reflexivity]. intros E.
  assert (E2 : alloc (peers_before l jv) = alloc (peers_before l jw)).
  { revert E. generalize (alloc (peers_before l jv)) as x, (alloc (peers_before l jw)) as y. intros x. induction x as [|c x IH]; intros [|d y] E.
    - reflexivity.
    - exfalso. apply (f_equal String.length) in E. cbn [append String.length] in E. rewrite string_length_app in E. cbn [String.length] in E. lia.
    - exfalso. apply (f_equal String.length) in E. cbn [append String.length] in E. rewrite string_length_app in E. cbn [String.length] in E. lia.
    - cbn [append] in E. injection E as E1 E2. subst d. rewrite (IH y E2). reflexivity. }
  apply INJ in E2. clear - E2 NV PV NW PW.
  assert (MONO : forall l i j x, nth_error l i = Some x -> ml_peer x = true -> i < j -> peers_before l i < peers_before l j).
  { clear. intros l. induction l as [|y l IH]; intros i j x N P L; [destruct i; discriminate N|]. destruct j as [|j]; [lia|]. destruct i as [|i].
    - cbn [nth_error] in N. injection N as N. subst y. unfold peers_before. cbn [firstn filter]. rewrite P. cbn [length filter]. lia.
    - cbn [nth_error] in N. specialize (IH i j x N P ltac:(lia)). unfold peers_before in *. cbn [firstn filter]. destruct (ml_peer y); cbn [length]; lia. }
  destruct (Nat.lt_trichotomy jv jw) as [L|[L|L]]; [|exact L|].
  - specialize (MONO l jv jw xv NV PV L). lia.
  - specialize (MONO l jw jv xw NW PW L). lia.
Qed.

(* Loopbacks with the same address are on nodes of one peer group, and all loopbacks of a peer group have one address. *)
Theorem vtep_address_shared : (forall a b, alloc a = alloc b -> a = b) -> forall l,
  (forall v w, In v (vtep_links alloc nodes 0 l) -> In w (vtep_links alloc nodes 0 l) -> vl_addr v = vl_addr w ->
     exists x, In x l /\ ml_peer x = true /\ In (vl_node v) (ml_nodes x) /\ In (vl_node w) (ml_nodes x)) /\
  (forall x, In x l -> ml_peer x = true -> exists a, forall n, In n (ml_nodes x) -> vtep_node n ->
     exists v, In v (vtep_links alloc nodes 0 l) /\ vl_node v = n /\ vl_addr v = a).
Proof.
  intros INJ l. split.
  - intros v w IV IW E. apply vtep_links_exact in IV. apply vtep_links_exact in IW.
    destruct IV as [jv [xv [NV [PV [MV [_ [AV _]]]]]]]. destruct IW as [jw [xw [NW [PW [MW [_ [AW _]]]]]]].
    assert (Q : jv = jw) by exact (proj1 (address_group INJ l v w jv xv jw xw NV PV AV NW PW AW) E). subst jw. rewrite NV in NW. injection NW as NW. subst xw.
    exists xv. split; [exact (nth_error_In _ _ NV)|]. split; [exact PV|]. split; assumption.
  - intros x I P. apply In_nth_error in I. destruct I as [j N]. exists (alloc (peers_before l j) ++ "/32")%string. intros n M VN.
    exists (mk_vl n (alloc (peers_before l j) ++ "/32")%string ("MLAG VTEP VXLAN interface shared between " ++ String.concat " - " (ml_nodes x))%string).
    split; [|split; reflexivity]. apply vtep_links_exact. exists j, x. cbn [vl_node vl_addr vl_name]. repeat (split; [first [assumption|reflexivity]|]). reflexivity.
Qed.
End Vtep.

(* ------------------------------------------------------------------ *)
(* Examples                                                             *)

Example x_orig :
  originate 1 [mk_on "a" true (Some [[("ipv4", VStr "172.16.0.0/24")]; [("ipv6", VStr "2001:db8::/64"); ("x", VNull)]]); mk_on "b" true (Some []); mk_on "c" false (Some [[]]);
               mk_on "d" true (Some [[]])] [1%Z; 4%Z] =
  ([1; 4; 5; 6; 7]%Z,
   [mk_ol "a" "BGP originate #1" "bgp.originate.a[1]" 5 [("ipv4", VStr "172.16.0.0/24")] [("ipv4", VInt 1)] true;
    mk_ol "a" "BGP originate #2" "bgp.originate.a[2]" 6 [("ipv6", VStr "2001:db8::/64")] [("ipv6", VInt 1)] true;
    mk_ol "d" "BGP originate #1" "bgp.originate.d[1]" 7 [] [] false],
   [mk_on "a" true None; mk_on "b" true (Some []); mk_on "c" false (Some [[]]); mk_on "d" true None]).
Proof. reflexivity. Qed.

Example x_vtep :
  vtep_links (fun k => nth k ["10.101.101.0"; "10.101.101.1"; "10.101.101.2"] "x")
    [("a", mk_mn None true); ("b", mk_mn (Some true) true); ("c", mk_mn (Some false) true); ("d", mk_mn None false); ("e", mk_mn None true)] 0
    [mk_ml true ["a"; "b"]; mk_ml false ["a"; "e"]; mk_ml true ["c"; "d"]; mk_ml true ["e"; "c"]] =
  [mk_vl "a" "10.101.101.0/32" "MLAG VTEP VXLAN interface shared between a - b"; mk_vl "b" "10.101.101.0/32" "MLAG VTEP VXLAN interface shared between a - b";
   mk_vl "e" "10.101.101.2/32" "MLAG VTEP VXLAN interface shared between e - c"].
Proof. reflexivity. Qed.

Print Assumptions originate_exact.
Print Assumptions originate_indexes.
Print Assumptions vtep_links_exact.
Print Assumptions vtep_links_count.
Print Assumptions vtep_address_shared.
