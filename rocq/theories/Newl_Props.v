(* Properties of links created from other data. *)
From Coq Require Import String Ascii ZArith Lia Bool List.
From Verif Require Import Base Box_Model Dev_Model Ndev_Model Newl_Model Box_Props.
Import ListNotations.
Local Open Scope string_scope.
Local Open Scope list_scope.

(* ------------------------------------------------------------------ *)
(* C241: links of VLANs                                                 *)

Section VlanLinkProps.
Variable adjust : string -> nat -> val -> option (dict val).
Variable first : Z.

(* usable link definition [d] of VLAN [n], in the order of VLANs and of the links of a VLAN *)
Inductive defined : string -> nat -> list val -> list (string * dict val) -> Prop :=
| DNil : forall n c, defined n c [] []
| DBad : forall n c l r ds, adjust n (S c) l = None -> defined n (S c) r ds -> defined n c (l :: r) ds
| DUse : forall n c l r d ds, adjust n (S c) l = Some d -> defined n (S c) r ds -> defined n c (l :: r) ((n, d) :: ds).

Inductive definitions : dict val -> list (string * dict val) -> Prop :=
| VNil : definitions [] []
| VSkip : forall n v r ds, (forall l, lookup ["links"] v <> Some (VList l)) -> definitions r ds -> definitions ((n, v) :: r) ds
| VUse : forall n v r l ds es, lookup ["links"] v = Some (VList l) -> defined n 0 l ds -> definitions r es -> definitions ((n, v) :: r) (ds ++ es).

(* the link [k] made from a definition [d] of VLAN [n] with index [i] *)
Definition made (i : Z) (n : string) (d k : dict val) : Prop :=
  dget "linkindex" k = Some (VInt i)
  /\ lookup ["vlan"; "access"] (VDict k) = Some (VStr n)
  /\ (forall v w, dget "vlan" d = Some (VDict v) -> w <> "access" -> lookup ["vlan"; w] (VDict k) = dget w v)
  /\ (forall w, w <> "linkindex" -> w <> "vlan" -> dget w k = dget w d).

Inductive numbered : Z -> list (string * dict val) -> list (dict val) -> Prop :=
| MNil : forall i, numbered i [] []
| MCons : forall i n d ds k ks, made i n d k -> numbered (i + 1) ds ks -> numbered i ((n, d) :: ds) (k :: ks).

Lemma made_ok : forall i n d, made i n d (dset "linkindex" (VInt i) (access_of n d)).
Proof.
  intros i n d. unfold made, access_of. cbn [lookup].
  assert (V : dget "vlan" (dset "linkindex" (VInt i) (dset "vlan" (VDict (dset "access" (VStr n) (rdd "vlan" d))) d)) = Some (VDict (dset "access" (VStr n) (rdd "vlan" d)))).
  { rewrite dget_dset_other by discriminate. apply dget_dset_same. }
  rewrite V. split; [apply dget_dset_same|]. split; [rewrite dget_dset_same; reflexivity|]. split.
  - intros v w E W. unfold rdd, rd. rewrite E. cbn [entries]. rewrite dget_dset_other by congruence. destruct (dget w v); reflexivity.
  - intros w A B. rewrite !dget_dset_other by congruence. reflexivity.
Qed.

Lemma numbered_app : forall ds ks i es qs, numbered i ds ks -> numbered (i + Z.of_nat (length ks)) es qs -> numbered i (ds ++ es) (ks ++ qs).
Proof.
  intros ds ks i es qs H. revert es qs. induction H as [i|i n d ds k ks M H IH]; intros es qs Q.
  - cbn [length Z.of_nat app] in *. replace (i + 0)%Z with i in Q by lia. exact Q.
  - cbn [app]. constructor; [exact M|]. apply IH. replace (i + 1 + Z.of_nat (length ks))%Z with (i + Z.of_nat (length (k :: ks)))%Z by (cbn [length]; lia). exact Q.
Qed.

Lemma next_snoc : forall links k i, dget "linkindex" k = Some (VInt i) -> next_index first (links ++ [k]) = (i + 1)%Z.
Proof.
  intros links k i E. unfold next_index. destruct (links ++ [k]) as [|a r] eqn:Q; [destruct links; discriminate Q|]. rewrite <- Q, last_last. unfold index_of. rewrite E. reflexivity.
Qed.

Lemma next_numbered : forall ds ks links, numbered (next_index first links) ds ks -> next_index first (links ++ ks) = (next_index first links + Z.of_nat (length ks))%Z.
Proof.
  intros ds ks links H. remember (next_index first links) as i eqn:I. revert links I. induction H as [i|i n d ds k ks M H IH]; intros links I.
  - rewrite app_nil_r. cbn [length Z.of_nat]. lia.
  - pose proof (next_snoc links k i (proj1 M)) as N. specialize (IH (links ++ [k]) (eq_sym N)). rewrite <- app_assoc in IH. cbn [app] in IH. rewrite IH. cbn [length]. lia.
Qed.

Lemma add_links_spec : forall n ls c links, exists ds ks, defined n c ls ds /\ add_links adjust first n c ls links = links ++ ks /\ numbered (next_index first links) ds ks.
Proof.
  intros n. induction ls as [|l r IH]; intros c links; cbn [add_links].
  - exists [], []. split; [constructor|]. split; [symmetry; apply app_nil_r|constructor].
  - destruct (adjust n (S c) l) as [d|] eqn:A.
    + set (k := dset "linkindex" (VInt (next_index first links)) (access_of n d)). destruct (IH (S c) (links ++ [k])) as [ds [ks [D [E N]]]].
      exists ((n, d) :: ds), (k :: ks). split; [apply (DUse n c l r d ds A D)|]. split; [rewrite E, <- app_assoc; reflexivity|].
      constructor; [apply made_ok|]. assert (X : next_index first (links ++ [k]) = (next_index first links + 1)%Z) by (apply next_snoc, made_ok). rewrite <- X. exact N.
    + destruct (IH (S c) links) as [ds [ks [D [E N]]]]. exists ds, ks. split; [apply (DBad n c l r ds A D)|]. split; [exact E|exact N].
Qed.

(* a VLAN after the creation of links: without its links *)
Definition cleaned (v w : val) : Prop :=
  match v with
  | VDict d => exists e, w = VDict e /\ dget "links" e = None /\ forall k, k <> "links" -> dget k e = dget k d
  | _ => w = v
  end.

(* the new links are exactly the usable links of VLANs, in order, with consecutive indexes and the access VLAN *)
Theorem vlan_links_exact : forall vlans links, exists ds ks,
  definitions vlans ds
  /\ snd (access_links adjust first vlans links) = links ++ ks /\ numbered (next_index first links) ds ks
  /\ Forall2 (fun p q => fst q = fst p /\ cleaned (snd p) (snd q)) vlans (fst (access_links adjust first vlans links)).
Proof.
  induction vlans as [|[n v] r IH]; intros links.
  { exists [], []. split; [constructor|]. split; [symmetry; apply app_nil_r|]. split; constructor. }
  assert (SKIP : (forall l, lookup ["links"] v <> Some (VList l)) -> forall w, cleaned v w -> exists ds ks, definitions ((n, v) :: r) ds
    /\ snd (access_links adjust first r links) = links ++ ks /\ numbered (next_index first links) ds ks
    /\ Forall2 (fun p q => fst q = fst p /\ cleaned (snd p) (snd q)) ((n, v) :: r) ((n, w) :: fst (access_links adjust first r links))).
  { intros NL w C. destruct (IH links) as [ds [ks [D [E [N F]]]]]. exists ds, ks. split; [apply VSkip; assumption|]. split; [exact E|]. split; [exact N|]. constructor; [|exact F]. split; [reflexivity|exact C]. }
  destruct v as [|b|z|s|l|d]; try (cbn [access_links]; cbv zeta; cbn [fst snd]; apply SKIP; [intros l0 Q; discriminate Q|reflexivity]).
  cbn [access_links]. destruct (dget "links" d) as [ls|] eqn:G.
  - cbv zeta. cbn [fst snd].
    assert (C : cleaned (VDict d) (VDict (dpop "links" d))).
    { exists (dpop "links" d). split; [reflexivity|]. split; [apply dget_dpop_same|]. intros k K. apply dget_dpop_other. congruence. }
    destruct ls as [|b|z|s|l|e]; try (cbn [add_links]; apply SKIP; [intros l0 Q; cbn [lookup] in Q; rewrite G in Q; discriminate Q|exact C]).
    destruct (add_links_spec n l 0 links) as [ds [ks [D [E N]]]]. rewrite E. destruct (IH (links ++ ks)) as [es [qs [D' [E' [N' F]]]]].
    exists (ds ++ es), (ks ++ qs). split; [apply (VUse n (VDict d) r l); [cbn [lookup]; rewrite G; reflexivity|exact D|exact D']|].
    split; [rewrite E', app_assoc; reflexivity|]. split; [apply numbered_app; [exact N|]; rewrite <- (next_numbered ds ks links N); exact N'|].
    constructor; [|exact F]. split; [reflexivity|exact C].
  - cbv zeta. cbn [fst snd]. apply SKIP; [intros l Q; cbn [lookup] in Q; rewrite G in Q; discriminate Q|]. exists d. auto.
Qed.

(* new links have new indexes when no index is after the last one *)
Theorem vlan_links_unique : forall vlans links, NoDup (map index_of links) -> (forall l, In l links -> (index_of l < next_index first links)%Z) ->
  NoDup (map index_of (snd (access_links adjust first vlans links))).
Proof.
  intros vlans links U B. destruct (vlan_links_exact vlans links) as [ds [ks [_ [E [N _]]]]]. rewrite E, map_app.
  assert (R : forall i ds ks, numbered i ds ks -> NoDup (map index_of ks) /\ forall x, In x (map index_of ks) -> (i <= x)%Z).
  { clear. intros i ds ks H. induction H as [i|i n d ds k ks M H [IH1 IH2]]; cbn [map]; [split; [constructor|intros x []]|].
    assert (K : index_of k = i) by (unfold index_of; rewrite (proj1 M); reflexivity). split.
    - constructor; [|exact IH1]. intros Q. apply IH2 in Q. lia.
    - intros x [Q|Q]; [lia|]. apply IH2 in Q. lia. }
  destruct (R _ _ _ N) as [R1 R2]. apply NoDup_app_intro; [exact U|exact R1|]. intros x X Y. apply R2 in Y. apply in_map_iff in X. destruct X as [l [L I]]. apply B in I. lia.
Qed.
End VlanLinkProps.

Example vlan_links_case :
  let adjust := fun (n : string) (c : nat) (v : val) => match v with VDict d => Some d | _ => None end in
  access_links adjust 1 [("red", VDict [("id", VInt 5); ("links", VList [VDict [("r1", VNull)]; VInt 3; VDict [("r2", VNull)]])])] [[("linkindex", VInt 7)]] =
    ([("red", VDict [("id", VInt 5)])],
     [[("linkindex", VInt 7)];
      [("r1", VNull); ("vlan", VDict [("access", VStr "red")]); ("linkindex", VInt 8)];
      [("r2", VNull); ("vlan", VDict [("access", VStr "red")]); ("linkindex", VInt 9)]]).
Proof. reflexivity. Qed.

(* ------------------------------------------------------------------ *)
(* C242: member links of LAG links                                      *)

Lemma dget_only : forall keep (d : dict val) k, dget k (only keep d) = if memS k keep then dget k d else None.
Proof.
  intros keep d k. unfold only. induction d as [|[a v] r IH]; [destruct (memS k keep); reflexivity|].
  cbn [filter fst]. destruct (memS a keep) eqn:A; cbn [dget]; destruct (String.eqb_spec k a) as [E|E].
  - subst a. rewrite A. reflexivity.
  - exact IH.
  - subst a. rewrite A in IH |- *. exact IH.
  - exact IH.
Qed.

Lemma NoDup_only : forall keep (d : dict val), NoDup (dkeys d) -> NoDup (dkeys (only keep d)).
Proof.
  intros keep d. unfold only, dkeys. induction d as [|[a v] r IH]; intros N; [constructor|]. cbn [map fst] in N. inversion N as [|x y N1 N2]; subst. cbn [filter fst].
  destruct (memS a keep); [|apply IH; exact N2]. cbn [map fst]. constructor; [|apply IH; exact N2]. intros Q. apply N1. apply in_map_iff in Q. destruct Q as [p [E P]]. apply filter_In in P. apply in_map_iff. exists p. split; [exact E|apply P].
Qed.

(* attributes of a link that are copied into member links, over the fixed ones *)
Lemma l2_base_get : forall attrs (l : dict val) k,
  dget k (l2_base attrs l) = match (if memS k attrs then dget k l else None) with
                             | Some v => Some v
                             | None => dget k [("type", VStr "p2p"); ("prefix", VBool false); ("lag", VDict [])]
                             end.
Proof.
  intros attrs l k. unfold l2_base. generalize ([("type", VStr "p2p"); ("prefix", VBool false); ("lag", VDict [])] : dict val). induction attrs as [|a r IH]; intros b.
  - reflexivity.
  - cbn [fold_left]. rewrite IH. cbn [memS existsb]. unfold memS. cbn [existsb]. destruct (String.eqb_spec k a) as [E|E].
    + subst a. cbn [orb]. destruct (dget k l) as [v|] eqn:G.
      * destruct (existsb (String.eqb k) r); [reflexivity|]. apply dget_dset_same.
      * destruct (existsb (String.eqb k) r); reflexivity.
    + cbn [orb]. destruct (dget a l) as [v|]; [|reflexivity]. destruct (if existsb (String.eqb k) r then dget k l else None); [reflexivity|]. apply dget_dset_other. congruence.
Qed.

(* member link [k] of link [l] made from member [m] *)
Definition member_of (attrs keep : list string) (l : dict val) (parent : val) (i : Z) (m k : dict val) : Prop :=
  dget "linkindex" k = Some (VInt i)
  /\ lookup ["lag"; "_parentindex"] (VDict k) = Some parent
  /\ (forall a, a <> "_parentindex" -> lookup ["lag"; a] (VDict k) = None)
  /\ dget "type" k = Some (VStr "p2p") /\ dget "prefix" k = Some (VBool false)
  /\ (forall a v, In a keep -> a <> "interfaces" -> dget a m = Some v -> is_dict v = false -> dget a k = Some v)
  /\ (forall a v, In a attrs -> dget a m = None -> dget a l = Some v -> dget a k = Some v)
  /\ (forall a, ~ In a attrs -> ~ In a keep -> ~ In a ["type"; "prefix"; "lag"; "linkindex"; "interfaces"] -> dget a k = None)
  /\ (forall is, In "interfaces" keep -> dget "interfaces" m = Some (VList is) ->
        exists ks, dget "interfaces" k = Some (VList ks)
          /\ Forall2 (fun i j => exists d, j = VDict d /\ forall a, dget a d = if memS a ["node"; "ifindex"] then dget a (entries i) else None) is ks).

(* the lists of attributes contain no attributes set by the function (true for the system defaults) *)
Definition usual (attrs keep : list string) : Prop :=
  (forall a, In a ["type"; "prefix"; "lag"; "linkindex"] -> ~ In a attrs /\ ~ In a keep) /\ ~ In "interfaces" attrs.

Lemma member_link_ok : forall attrs keep l parent i m, usual attrs keep -> NoDup (dkeys m) ->
  member_of attrs keep l parent i m (member_link (l2_base attrs l) keep parent i m).
Proof.
  intros attrs keep l parent i m [U UI] N. unfold member_link. rewrite merge_dicts. cbn [entries]. set (b := l2_base attrs l). set (x := mdict b (only keep m)).
  assert (X : forall k, dget k x = mopt (dget k b) (if memS k keep then dget k m else None)).
  { intros k. unfold x. rewrite dget_mdict by (apply NoDup_only; exact N). rewrite dget_only. reflexivity. }
  assert (B : forall k, dget k b = match (if memS k attrs then dget k l else None) with Some v => Some v | None => dget k [("type", VStr "p2p"); ("prefix", VBool false); ("lag", VDict [])] end) by (intros k; apply l2_base_get).
  clearbody x b. cbv zeta.
  assert (FIX : forall a, In a ["type"; "prefix"; "lag"; "linkindex"] -> dget a x = dget a ([("type", VStr "p2p"); ("prefix", VBool false); ("lag", VDict [])] : dict val)).
  { intros a A. destruct (U a A) as [U1 U2]. rewrite X, B. apply memS_false in U1, U2. rewrite U1, U2. clear. destruct (dget a [("type", VStr "p2p"); ("prefix", VBool false); ("lag", VDict [])]); reflexivity. }
  set (d1 := dset "linkindex" (VInt i) x). set (is := match dget "interfaces" d1 with Some (VList l0) => l0 | _ => [] end).
  set (d2 := dset "interfaces" (VList (map (fun j => VDict (only ["node"; "ifindex"] (entries j))) is)) d1).
  assert (L : rdd "lag" d2 = []).
  { unfold rdd, rd, d2, d1. rewrite !dget_dset_other by discriminate. rewrite (FIX "lag") by (cbn [In]; auto). reflexivity. }
  rewrite L.
  assert (O : forall a, ~ In a ["linkindex"; "interfaces"; "lag"] -> dget a (dset "lag" (VDict (dset "_parentindex" parent [])) d2) = dget a x).
  { intros a A. cbn [In] in A. unfold d2, d1. rewrite !dget_dset_other by (intros Q; apply A; auto). reflexivity. }
  unfold member_of. cbn [lookup]. rewrite dget_dset_same.
  split; [unfold d2, d1; rewrite dget_dset_other by discriminate; rewrite dget_dset_other by discriminate; apply dget_dset_same|].
  split; [rewrite dget_dset_same; reflexivity|]. split.
  { intros a A. rewrite dget_dset_other by congruence. reflexivity. }
  split; [rewrite O by (cbn [In]; intuition discriminate); rewrite FIX by (cbn [In]; auto); reflexivity|].
  split; [rewrite O by (cbn [In]; intuition discriminate); rewrite FIX by (cbn [In]; auto); reflexivity|].
  assert (KEEP : forall a, In a keep -> a <> "interfaces" -> ~ In a ["linkindex"; "interfaces"; "lag"]).
  { intros a K I Q. cbn [In] in Q. destruct Q as [Q|[Q|[Q|[]]]]; [|congruence|]; subst a; match type of K with In ?x _ => refine (proj2 (U x _) K); cbn [In]; auto end. }
  split.
  { intros a v K I G D. rewrite O by (apply KEEP; assumption). rewrite X. apply memS_true in K. rewrite K, G. unfold mopt. destruct (dget a b); [|reflexivity]. rewrite merge_scalar_r by exact D. reflexivity. }
  split.
  { intros a v A G E. rewrite O.
    - rewrite X, B, G. apply memS_true in A. rewrite A, E. destruct (memS a keep); reflexivity.
    - intros Q. cbn [In] in Q. destruct Q as [Q|[Q|[Q|[]]]]; subst a; [|contradiction|]; match type of A with In ?x _ => refine (proj1 (U x _) A); cbn [In]; auto end. }
  split.
  { intros a A K Q. rewrite O by (intros Z; apply Q; cbn [In] in *; tauto). rewrite X, B. apply memS_false in A, K. rewrite A, K. cbn [dget].
    cbn [In] in Q. destruct (String.eqb_spec a "type") as [E|_]; [subst a; tauto|]. destruct (String.eqb_spec a "prefix") as [E|_]; [subst a; tauto|]. destruct (String.eqb_spec a "lag") as [E|_]; [subst a; tauto|]. reflexivity. }
  intros js K G. assert (IS : is = js).
  { unfold is, d1. rewrite dget_dset_other by discriminate. rewrite X, B. apply memS_true in K. apply memS_false in UI. rewrite UI, K, G. reflexivity. }
  exists (map (fun j => VDict (only ["node"; "ifindex"] (entries j))) js). split.
  - unfold d2. rewrite IS. rewrite dget_dset_other by discriminate. apply dget_dset_same.
  - clear. induction js as [|j r IH]; cbn [map]; constructor; [|exact IH]. eexists. split; [reflexivity|]. intros a. apply dget_only.
Qed.

Inductive members_of (attrs keep : list string) (l : dict val) (parent : val) : Z -> list (dict val) -> list (dict val) -> Prop :=
| QNil : forall i, members_of attrs keep l parent i [] []
| QCons : forall i m ms k ks, member_of attrs keep l parent i m k -> members_of attrs keep l parent (i + 1) ms ks -> members_of attrs keep l parent i (m :: ms) (k :: ks).

(* one link without address for every member, numbered from the number of links, with L2 attributes of the link or the member *)
Theorem lag_member_links_exact : forall attrs keep l parent ms links, usual attrs keep -> (forall m, In m ms -> NoDup (dkeys m)) ->
  exists ks, member_links (l2_base attrs l) keep parent ms links = links ++ ks
    /\ members_of attrs keep l parent (Z.of_nat (length links) + 1) ms ks.
Proof.
  intros attrs keep l parent ms links U. revert links. induction ms as [|m r IH]; intros links W; cbn [member_links].
  { exists []. split; [symmetry; apply app_nil_r|constructor]. }
  set (k := member_link (l2_base attrs l) keep parent (Z.of_nat (length links) + 1) m).
  destruct (IH (links ++ [k]) (fun x X => W x (or_intror X))) as [ks [E Q]]. exists (k :: ks). split; [rewrite E, <- app_assoc; reflexivity|].
  constructor; [apply member_link_ok; [exact U|apply W; left; reflexivity]|].
  rewrite app_length in Q. cbn [length] in Q. replace (Z.of_nat (length links) + 1 + 1)%Z with (Z.of_nat (length links + 1) + 1)%Z by lia. exact Q.
Qed.

(* links numbered from one stay so *)
Theorem lag_member_links_unique : forall attrs keep l parent ms links, usual attrs keep -> (forall m, In m ms -> NoDup (dkeys m)) ->
  (forall n k, nth_error links n = Some k -> index_of k = Z.of_nat n + 1)%Z ->
  forall n k, nth_error (member_links (l2_base attrs l) keep parent ms links) n = Some k -> (index_of k = Z.of_nat n + 1)%Z.
Proof.
  intros attrs keep l parent ms links U W H n k. destruct (lag_member_links_exact attrs keep l parent ms links U W) as [ks [E Q]]. rewrite E.
  assert (R : forall i ms ks, members_of attrs keep l parent i ms ks -> forall p x, nth_error ks p = Some x -> index_of x = (i + Z.of_nat p)%Z).
  { clear. intros i ms ks H. induction H as [i|i m ms k ks M H IH]; intros p x P; [destruct p; discriminate P|]. destruct p as [|p].
    - cbn [nth_error] in P. injection P as P. subst x. unfold index_of. rewrite (proj1 M). lia.
    - cbn [nth_error] in P. rewrite (IH p x P). lia. }
  intros P. destruct (Nat.lt_ge_cases n (length links)) as [L|L].
  - rewrite nth_error_app1 in P by exact L. apply H. exact P.
  - rewrite nth_error_app2 in P by exact L. rewrite (R _ _ _ Q _ _ P). lia.
Qed.

(* with another first index (defaults.link_index) a member link gets the index of another link *)
Theorem lag_member_index_refuted : exists links m,
  map index_of links = [2%Z] /\ map index_of (member_links (l2_base [] []) ["interfaces"] VNull [m] links) = [2%Z; 2%Z].
Proof. exists [[("linkindex", VInt 2)]], []. split; reflexivity. Qed.

Example lag_member_links_case :
  let keep := ["mtu"; "bandwidth"; "_linkname"; "interfaces"] in let attrs := ["mtu"; "bandwidth"] in
  usual attrs keep
  /\ member_links (l2_base attrs [("mtu", VInt 1500); ("bandwidth", VInt 10)]) keep (VInt 1)
       [[("mtu", VInt 9000); ("interfaces", VList [VDict [("node", VStr "a"); ("x", VNull)]; VDict [("node", VStr "b")]])]] [[("linkindex", VInt 1)]] =
     [[("linkindex", VInt 1)];
      [("type", VStr "p2p"); ("prefix", VBool false); ("lag", VDict [("_parentindex", VInt 1)]); ("mtu", VInt 9000); ("bandwidth", VInt 10);
       ("interfaces", VList [VDict [("node", VStr "a")]; VDict [("node", VStr "b")]]); ("linkindex", VInt 2)]].
Proof.
  cbv zeta. split; [|reflexivity]. unfold usual. cbn [In]. split; [|intuition discriminate]. intros a [A|[A|[A|[A|[]]]]]; subst a; split; intuition discriminate.
Qed.

Print Assumptions vlan_links_exact.
Print Assumptions vlan_links_unique.
Print Assumptions lag_member_links_exact.
Print Assumptions lag_member_links_unique.
Print Assumptions lag_member_index_refuted.
