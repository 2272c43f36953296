(* Property C152: sessions of BGP route servers and their clients (bgp.session plugin). *)
From Coq Require Import String Ascii ZArith Lia Bool List.
From Verif Require Import Base Box_Model Clone_Model Clone_Props Sess_Model Sess_Props.
Import ListNotations.
Local Open Scope string_scope.
Local Open Scope list_scope.
Local Open Scope nat_scope.

Section RouteServer.
Variable attrs : list string.
Variable feat : string -> string -> option val.
Variable provider : string.

(* ---------- what the sessions should be ---------- *)

(* the sessions of a node once the attributes of the node and its interfaces were copied into them *)
Definition sessions_of (t : dict snode) (x : string) : list ng :=
  match dget x t with
  | Some n => if memS "bgp" (s_module n) then s_ngb (fst (local_part attrs feat provider x n)) else s_ngb n
  | None => []
  end.

(* a session of a route server: an EBGP session with the attribute rs *)
Definition serves (g : ng) : Prop := g_type g = "ebgp" /\ exists v, set_to (g_d g) "rs" v.

(* node x is a route server in at least one of its sessions with node y *)
Definition rs_to (t : dict snode) (x y : string) : Prop := exists h, In h (sessions_of t x) /\ serves h /\ g_name h = y.

(* A session of node y stays unless both ends are route servers, or it is an ordinary EBGP session on
   an interface on which node y is a client of a route server. *)
Definition stays (t : dict snode) (y : string) (g : ng) : Prop :=
  ~ (serves g /\ rs_to t (g_name g) y) /\
  (g_type g = "ebgp" -> serves g \/ rs_to t (g_name g) y \/
     forall c, In c (sessions_of t y) -> g_type c = "ebgp" -> ~ serves c -> rs_to t (g_name c) y ->
       dget "ifindex" (g_d c) <> dget "ifindex" (g_d g)).

(* a session that stays: clients of route servers are marked, an IBGP session does not have the attribute rs *)
Definition kept (t : dict snode) (y : string) (g g' : ng) : Prop :=
  g_vrf g' = g_vrf g /\
  (forall k, k <> "rs" -> k <> "rs_client" -> dget k (g_d g') = dget k (g_d g)) /\
  (dget "rs_client" (g_d g') = Some (VBool true) <-> session g /\ rs_to t (g_name g) y) /\
  (dget "rs_client" (g_d g') <> None -> session g /\ rs_to t (g_name g) y) /\
  (g_type g = "ibgp" -> dget "rs" (g_d g') = None) /\
  (g_type g <> "ibgp" -> dget "rs" (g_d g') = dget "rs" (g_d g)).

Inductive kept_list (t : dict snode) (y : string) : list ng -> list ng -> Prop :=
| kl_nil : kept_list t y [] []
| kl_stay : forall g g' l l', stays t y g -> kept t y g g' -> kept_list t y l l' -> kept_list t y (g :: l) (g' :: l')
| kl_drop : forall g l l', ~ stays t y g -> kept_list t y l l' -> kept_list t y (g :: l) l'.

(* ---------- the sessions of a node ---------- *)

Inductive upds (bgp : dict val) : ng -> ng -> Prop :=
| u_refl : forall g, upds bgp g g
| u_step : forall g g1 intf l, upds bgp g g1 -> incl l attrs -> upds bgp g (upd bgp intf l g1).

Lemma upds_trans : forall bgp a b c, upds bgp a b -> upds bgp b c -> upds bgp a c.
Proof. intros bgp a b c A B. induction B as [|b g1 intf l B IH I]; [exact A|]. apply u_step; [exact (IH A) | exact I]. Qed.

Lemma apply_all_upds : forall node bgp intf l sel stop gs ok clear, incl l attrs ->
  Forall2 (upds bgp) gs (fst (fst (fst (fst (apply_all feat provider node bgp intf l sel stop gs ok clear))))).
Proof.
  intros node bgp intf l sel stop gs ok clear I. revert ok clear. induction gs as [|g r IH]; intros ok clear; cbn [apply_all].
  - constructor.
  - destruct (sel g && (ok || negb stop)).
    + destruct (apply_attributes feat provider node bgp intf l (g_d g) true clear) as [[[[d ok1] e1] c1] u1] eqn:A.
      destruct (apply_attributes_spec _ _ _ _ _ _ _ _ _ _ _ _ _ _ A) as [D _].
      specialize (IH (ok && ok1) c1).
      destruct (apply_all feat provider node bgp intf l sel stop r (ok && ok1) c1) as [[[[r2 ok2] e2] c2] u2].
      cbn [fst] in *. constructor; [|exact IH]. subst d. change (upds bgp g (upd bgp intf l g)).
      apply u_step; [apply u_refl | exact I].
    + specialize (IH ok clear). destruct (apply_all feat provider node bgp intf l sel stop r ok clear) as [[[[r2 ok2] e2] c2] u2].
      cbn [fst] in *. constructor; [apply u_refl | exact IH].
Qed.

Lemma Forall2_trans_upds : forall bgp a b c, Forall2 (upds bgp) a b -> Forall2 (upds bgp) b c -> Forall2 (upds bgp) a c.
Proof.
  intros bgp a b c A. revert c. induction A as [|x y l l' H A IH]; intros c B; inversion B as [|y' z l2 l3 H2 B2]; subst; constructor.
  - exact (upds_trans _ _ _ _ H H2).
  - exact (IH _ B2).
Qed.

Lemma upds_refl_list : forall bgp l, Forall2 (upds bgp) l l.
Proof. intros bgp l. induction l; constructor; [apply u_refl | assumption]. Qed.

Lemma apply_intfs_upds : forall node bgp l is gs clear, incl l attrs ->
  Forall2 (upds bgp) gs (fst (fst (fst (apply_intfs feat provider node bgp l is gs clear)))).
Proof.
  intros node bgp l is gs clear I. revert gs clear. induction is as [|i r IH]; intros gs clear; cbn [apply_intfs].
  - apply upds_refl_list.
  - pose proof (apply_all_upds node bgp (Some (i_bgp i)) l (on_intf i) false gs true clear I) as A.
    destruct (apply_all feat provider node bgp (Some (i_bgp i)) l (on_intf i) false gs true clear) as [[[[g1 ok1] e1] c1] u1].
    cbn [fst] in A. specialize (IH g1 c1). destruct (apply_intfs feat provider node bgp l r g1 c1) as [[[g2 e2] c2] u2].
    cbn [fst] in *. exact (Forall2_trans_upds _ _ _ _ A IH).
Qed.

(* a session before and after the local part of the work *)
Definition drop_bfd (g : ng) : ng :=
  if listed g && dmem "bfd" (g_d g) && negb (vget "bfd" (g_d g)) then set_d g (dpop "bfd" (g_d g)) else g.

Lemma local_part_ngb : forall x n, s_ngb (fst (local_part attrs feat provider x n)) =
  map drop_bfd (s_ngb (fst (copy_local attrs feat provider x (cleanup_attributes attrs n)))).
Proof.
  intros x n. unfold local_part.
  destruct (copy_local attrs feat provider x (cleanup_attributes attrs n)) as [n1 e1]. reflexivity.
Qed.

Lemma known_lists : forall n, known attrs n -> incl (ilist attrs n) attrs /\ incl (elist attrs n) attrs.
Proof.
  intros n K. split; intros a I; [apply ilist_In in I | apply elist_In in I]; exact (K _ _ I).
Qed.

Lemma local_part_fields : forall x n,
  s_module (fst (local_part attrs feat provider x n)) = s_module n /\ s_bgp (fst (local_part attrs feat provider x n)) = s_bgp n /\
  s_intf (fst (local_part attrs feat provider x n)) = s_intf n.
Proof.
  intros x n. unfold local_part, tcpao, bfd_requests. rewrite copy_local_lists.
  destruct (cleanup_fields attrs n) as [F1 [F2 [F3 [F4 [F5 [F6 [F7 [F8 F9]]]]]]]].
  rewrite F1, F2, F3, F4, F5, F6, F7, F8, F9.
  destruct (apply_all feat provider x (s_bgp n) None (ilist attrs n) ibgp true (map (cleaned attrs) (s_ngb n)) true (s_clear n)) as [[[[g1 ok] e1] c1] u1].
  destruct (if ok then apply_intfs feat provider x (s_bgp n) (elist attrs n) (s_intf n) g1 c1 else (g1, [], c1, false)) as [[[g2 e2] c2] u2].
  repeat split.
Qed.

Lemma copy_local_upds : forall x n, known attrs n ->
  Forall2 (fun g g' => upds (s_bgp n) (cleaned attrs g) g') (s_ngb n)
    (s_ngb (fst (copy_local attrs feat provider x (cleanup_attributes attrs n)))).
Proof.
  intros x n K. destruct (known_lists n K) as [KI KE]. rewrite copy_local_lists.
  destruct (cleanup_fields attrs n) as [F1 [F2 [F3 [F4 [F5 [F6 [F7 [F8 F9]]]]]]]].
  rewrite F1, F2, F3, F4, F5, F6, F7, F8, F9.
  pose proof (apply_all_upds x (s_bgp n) None (ilist attrs n) ibgp true (map (cleaned attrs) (s_ngb n)) true (s_clear n) KI) as A.
  destruct (apply_all feat provider x (s_bgp n) None (ilist attrs n) ibgp true (map (cleaned attrs) (s_ngb n)) true (s_clear n)) as [[[[g1 ok] e1] c1] u1].
  cbn [fst] in A. pose proof (apply_intfs_upds x (s_bgp n) (elist attrs n) (s_intf n) g1 c1 KE) as B.
  assert (Forall2 (upds (s_bgp n)) (map (cleaned attrs) (s_ngb n))
            (fst (fst (fst (if ok then apply_intfs feat provider x (s_bgp n) (elist attrs n) (s_intf n) g1 c1 else (g1, [], c1, false)))))) as C.
  { destruct ok; [exact (Forall2_trans_upds _ _ _ _ A B) | exact A]. }
  destruct (if ok then apply_intfs feat provider x (s_bgp n) (elist attrs n) (s_intf n) g1 c1 else (g1, [], c1, false)) as [[[g2 e2] c2] u2].
  cbn [fst s_ngb] in *. clear -C. remember (map (cleaned attrs) (s_ngb n)) as l eqn:E. revert E. generalize (s_ngb n).
  induction C as [|a b l l' H C IH]; intros m E.
  - destruct m; [constructor | discriminate E].
  - destruct m as [|y m]; [discriminate E|]. cbn [map] in E. injection E as E1 E2. subst a. constructor; [exact H | exact (IH m E2)].
Qed.

Lemma upds_keeps : forall bgp g g', upds bgp g g' ->
  g_vrf g' = g_vrf g /\ (forall k, ~ In k attrs -> dget k (g_d g') = dget k (g_d g)) /\
  ((forall v, dget "rs" (g_d g) = Some v -> truthy v = true) -> forall v, dget "rs" (g_d g') = Some v -> truthy v = true).
Proof.
  intros bgp g g' U. induction U as [g|g g1 intf l U [IH1 [IH2 IH3]] I].
  - split; [reflexivity|]. split; [reflexivity | auto].
  - refine (conj _ (conj _ _)).
    + exact IH1.
    + intros k N. unfold upd, set_d. cbn [g_d]. rewrite adata_keeps; [exact (IH2 k N) | intro X; exact (N (I k X))].
    + intros Q v. unfold upd, set_d. cbn [g_d]. rewrite adata_get.
      destruct (memS "rs" l); [|exact (IH3 Q v)].
      destruct (attr_value bgp intf "rs") as [w|] eqn:W; [|exact (IH3 Q v)].
      intro E. injection E as ->. apply attr_value_Some in W.
      inversion W as [i' v' E' [_ TR]|v' _ [_ TR]|]; subst; exact TR.
Qed.

Lemma drop_bfd_keeps : forall g, g_vrf (drop_bfd g) = g_vrf g /\ forall k, k <> "bfd" -> dget k (g_d (drop_bfd g)) = dget k (g_d g).
Proof.
  intro g. unfold drop_bfd. destruct (listed g && dmem "bfd" (g_d g) && negb (vget "bfd" (g_d g))); [|split; reflexivity].
  split; [reflexivity|]. intros k N. cbn [set_d g_d]. apply dget_dpop_other. exact N.
Qed.

Lemma str_of_same : forall k d d', dget k d' = dget k d -> str_of k d' = str_of k d.
Proof. intros k d d' E. unfold str_of. rewrite E. reflexivity. Qed.

(* what the local part does not change *)
Definition kin (g g' : ng) : Prop :=
  g_vrf g' = g_vrf g /\ g_name g' = g_name g /\ g_type g' = g_type g /\
  (forall k, In k ["ifindex"; "rs_client"; "_zapped"] -> dget k (g_d g') = dget k (g_d g)) /\
  (dget "rs" (g_d g) = None -> forall v, dget "rs" (g_d g') = Some v -> truthy v = true).

Lemma local_part_kin : forall x n, known attrs n -> plain attrs -> ~ In "rs_client" attrs -> ~ In "_zapped" attrs ->
  Forall2 kin (s_ngb n) (s_ngb (fst (local_part attrs feat provider x n))).
Proof.
  intros x n K P NR NZ. rewrite local_part_ngb. pose proof (copy_local_upds x n K) as C.
  induction C as [|g g' l l' U C IH]; cbn [map]; constructor; [|exact IH]. clear IH C.
  destruct (upds_keeps _ _ _ U) as [V [KP RS]]. destruct (drop_bfd_keeps g') as [DV DK].
  assert (forall k, k <> "bfd" -> ~ In k attrs -> dget k (g_d (drop_bfd g')) = dget k (g_d g)) as Q.
  { intros k N1 N2. rewrite DK by exact N1. rewrite KP by exact N2. rewrite cleaned_get.
    apply memS_false in N2. rewrite N2, andb_false_r. reflexivity. }
  refine (conj _ (conj _ (conj _ (conj _ _)))).
  - rewrite DV, V. unfold cleaned. destruct (listed g); reflexivity.
  - apply str_of_same, Q; [discriminate | apply P; cbn; tauto].
  - apply str_of_same, Q; [discriminate | apply P; cbn; tauto].
  - intros k [<-|[<-|[<-|[]]]]; (apply Q; [discriminate|]); [apply P; cbn; tauto | exact NR | exact NZ].
  - intros N v. rewrite DK by discriminate. apply RS. intros w. rewrite cleaned_get, N.
    destruct (listed g && memS "rs" attrs); discriminate.
Qed.

(* ---------- sessions marked before their node is processed ---------- *)

Definition like (g g' : ng) : Prop := g_vrf g' = g_vrf g /\ forall k, k <> "rs_client" -> dget k (g_d g') = dget k (g_d g).

Lemma like_name : forall g g', like g g' -> g_name g' = g_name g /\ g_type g' = g_type g /\ listed g' = listed g /\
  ibgp g' = ibgp g /\ forall i, on_intf i g' = on_intf i g.
Proof.
  intros g g' [V D]. assert (g_type g' = g_type g) as T by (apply str_of_same, D; discriminate).
  refine (conj _ (conj T (conj _ (conj _ _)))).
  - apply str_of_same, D. discriminate.
  - unfold listed, ibgp, ebgp. rewrite T. reflexivity.
  - unfold ibgp. rewrite T. reflexivity.
  - intro i. unfold on_intf, ebgp. rewrite V, T, D by discriminate. reflexivity.
Qed.

Lemma like_upd : forall bgp intf l g g', like g g' -> like (upd bgp intf l g) (upd bgp intf l g').
Proof.
  intros bgp intf l g g' [V D]. split; [exact V|]. intros k N. unfold upd, set_d. cbn [g_d].
  rewrite !adata_get, (D k N). reflexivity.
Qed.

Lemma like_cleaned : forall g g', like g g' -> like (cleaned attrs g) (cleaned attrs g').
Proof.
  intros g g' L. destruct (like_name _ _ L) as [_ [_ [E _]]]. destruct L as [V D]. split.
  - unfold cleaned. rewrite E. destruct (listed g); exact V.
  - intros k N. rewrite !cleaned_get, E, (D k N). reflexivity.
Qed.

Lemma like_drop_bfd : forall g g', like g g' -> like (drop_bfd g) (drop_bfd g').
Proof.
  intros g g' L. destruct (like_name _ _ L) as [_ [_ [E _]]]. destruct L as [V D].
  unfold drop_bfd, vget, dmem. rewrite E, (D "bfd") by discriminate.
  destruct (listed g && match dget "bfd" (g_d g) with Some _ => true | None => false end &&
            negb match dget "bfd" (g_d g) with Some v => truthy v | None => false end); [|split; assumption].
  split; [exact V|]. intros k N. cbn [set_d g_d]. destruct (String.eqb k "bfd") eqn:B.
  - apply String.eqb_eq in B. subst k. rewrite !dget_dpop_same. reflexivity.
  - apply String.eqb_neq in B. rewrite !dget_dpop_other by exact B. exact (D k N).
Qed.

(* support checks use the name of the neighbor only *)
Lemma apply_attributes_ok : forall node bgp intf l d d' ok c c', ~ In "name" l -> dget "name" d' = dget "name" d ->
  snd (fst (fst (fst (apply_attributes feat provider node bgp intf l d ok c)))) =
  snd (fst (fst (fst (apply_attributes feat provider node bgp intf l d' ok c')))).
Proof.
  intros node bgp intf. induction l as [|a r IH]; intros d d' ok c c' N E; [reflexivity|]. cbn [apply_attributes].
  assert (~ In "name" r) as NR by (intro X; apply N; right; exact X).
  assert ("name" <> a) as NA by (intro X; apply N; left; symmetry; exact X).
  destruct (attr_value bgp intf a) as [v|].
  - assert (dget "name" (dset a v d') = dget "name" (dset a v d)) as E2 by (rewrite !dget_dset_other by exact NA; exact E).
    rewrite (str_of_same "name" d d' E).
    set (e := if ok then check_support feat provider node a (str_of "name" d) else []).
    specialize (IH (dset a v d) (dset a v d') (ok && match e with [] => true | _ => false end)
                  (clear_sessions (dset a v d) c) (clear_sessions (dset a v d') c') NR E2).
    destruct (apply_attributes feat provider node bgp intf r (dset a v d) (ok && match e with [] => true | _ => false end) (clear_sessions (dset a v d) c)) as [[[[d1 o1] e1] c1] u1].
    destruct (apply_attributes feat provider node bgp intf r (dset a v d') (ok && match e with [] => true | _ => false end) (clear_sessions (dset a v d') c')) as [[[[d2 o2] e2] c2] u2].
    exact IH.
  - exact (IH _ _ _ _ _ NR E).
Qed.

Lemma apply_all_like : forall node bgp intf l sel stop gs gs' ok c c', ~ In "name" l ->
  (forall g g', like g g' -> sel g' = sel g) -> Forall2 like gs gs' ->
  let r := apply_all feat provider node bgp intf l sel stop gs ok c in
  let r' := apply_all feat provider node bgp intf l sel stop gs' ok c' in
  Forall2 like (fst (fst (fst (fst r)))) (fst (fst (fst (fst r')))) /\ snd (fst (fst (fst r))) = snd (fst (fst (fst r'))).
Proof.
  intros node bgp intf l sel stop gs gs' ok c c' N S F. revert ok c c'.
  induction F as [|g g' r r' L F IH]; intros ok c c'; cbn [apply_all].
  - split; [constructor | reflexivity].
  - rewrite (S _ _ L). destruct (sel g && (ok || negb stop)).
    + pose proof (apply_attributes_ok node bgp intf l (g_d g) (g_d g') true c c' N (proj2 L "name" ltac:(discriminate))) as OK.
      destruct (apply_attributes feat provider node bgp intf l (g_d g) true c) as [[[[d ok1] e1] c1] u1] eqn:A.
      destruct (apply_attributes feat provider node bgp intf l (g_d g') true c') as [[[[d' ok1'] e1'] c1'] u1'] eqn:A'.
      destruct (apply_attributes_spec _ _ _ _ _ _ _ _ _ _ _ _ _ _ A) as [D _].
      destruct (apply_attributes_spec _ _ _ _ _ _ _ _ _ _ _ _ _ _ A') as [D' _].
      cbn [fst snd] in OK. subst ok1' d d'. specialize (IH (ok && ok1) c1 c1'). cbv zeta in IH.
      destruct (apply_all feat provider node bgp intf l sel stop r (ok && ok1) c1) as [[[[r2 ok2] e2] c2] u2].
      destruct (apply_all feat provider node bgp intf l sel stop r' (ok && ok1) c1') as [[[[r2' ok2'] e2'] c2'] u2'].
      cbn [fst snd] in *. split; [|apply IH]. constructor; [|apply IH].
      exact (like_upd bgp intf l g g' L).
    + specialize (IH ok c c'). cbv zeta in IH.
      destruct (apply_all feat provider node bgp intf l sel stop r ok c) as [[[[r2 ok2] e2] c2] u2].
      destruct (apply_all feat provider node bgp intf l sel stop r' ok c') as [[[[r2' ok2'] e2'] c2'] u2'].
      cbn [fst snd] in *. split; [|apply IH]. constructor; [exact L | apply IH].
Qed.

Lemma apply_intfs_like : forall node bgp l is gs gs' c c', ~ In "name" l -> Forall2 like gs gs' ->
  Forall2 like (fst (fst (fst (apply_intfs feat provider node bgp l is gs c)))) (fst (fst (fst (apply_intfs feat provider node bgp l is gs' c')))).
Proof.
  intros node bgp l is. induction is as [|i r IH]; intros gs gs' c c' N F; cbn [apply_intfs]; [exact F|].
  assert (forall g g', like g g' -> on_intf i g' = on_intf i g) as S by (intros g g' L; apply (like_name _ _ L)).
  pose proof (apply_all_like node bgp (Some (i_bgp i)) l (on_intf i) false gs gs' true c c' N S F) as A. cbv zeta in A.
  destruct (apply_all feat provider node bgp (Some (i_bgp i)) l (on_intf i) false gs true c) as [[[[g1 o1] e1] c1] u1].
  destruct (apply_all feat provider node bgp (Some (i_bgp i)) l (on_intf i) false gs' true c') as [[[[g1' o1'] e1'] c1'] u1'].
  cbn [fst snd] in A. specialize (IH g1 g1' c1 c1' N (proj1 A)).
  destruct (apply_intfs feat provider node bgp l r g1 c1) as [[[g2 e2] c2] u2].
  destruct (apply_intfs feat provider node bgp l r g1' c1') as [[[g2' e2'] c2'] u2']. exact IH.
Qed.

Lemma Forall2_map2 : forall (f : ng -> ng) (R S : ng -> ng -> Prop) l l', (forall a b, R a b -> S (f a) (f b)) ->
  Forall2 R l l' -> Forall2 S (map f l) (map f l').
Proof. intros f R S l l' H F. induction F; cbn [map]; constructor; auto. Qed.

Lemma local_part_like : forall x n n', plain attrs -> known attrs n ->
  s_bgp n' = s_bgp n -> s_intf n' = s_intf n -> Forall2 like (s_ngb n) (s_ngb n') ->
  Forall2 like (s_ngb (fst (local_part attrs feat provider x n))) (s_ngb (fst (local_part attrs feat provider x n'))).
Proof.
  intros x n n' P K EB EI F. rewrite !local_part_ngb. apply Forall2_map2 with (R := like); [exact like_drop_bfd|].
  destruct (known_lists n K) as [KI KE].
  assert (~ In "name" (ilist attrs n)) as NI by (intro X; apply (P "name"); [cbn; tauto | exact (KI _ X)]).
  assert (~ In "name" (elist attrs n)) as NE by (intro X; apply (P "name"); [cbn; tauto | exact (KE _ X)]).
  rewrite !copy_local_lists.
  destruct (cleanup_fields attrs n) as [F1 [F2 [F3 [F4 [F5 [F6 [F7 [F8 F9]]]]]]]].
  rewrite F1, F2, F3, F4, F5, F6, F7, F8, F9.
  clear F1 F2 F3 F4 F5 F6 F7 F8 F9. destruct (cleanup_fields attrs n') as [F1 [F2 [F3 [F4 [F5 [F6 [F7 [F8 F9]]]]]]]].
  rewrite F1, F2, F3, F4, F5, F6, F7, F8, F9.
  assert (ilist attrs n' = ilist attrs n) as -> by (unfold ilist; rewrite EB; reflexivity).
  assert (elist attrs n' = elist attrs n) as -> by (unfold elist; rewrite EB; reflexivity).
  rewrite EB, EI.
  assert (forall g g', like g g' -> ibgp g' = ibgp g) as S by (intros g g' L; apply (like_name _ _ L)).
  pose proof (apply_all_like x (s_bgp n) None (ilist attrs n) ibgp true _ _ true (s_clear n) (s_clear n') NI S
                (Forall2_map2 (cleaned attrs) like like _ _ like_cleaned F)) as A. cbv zeta in A.
  destruct (apply_all feat provider x (s_bgp n) None (ilist attrs n) ibgp true (map (cleaned attrs) (s_ngb n)) true (s_clear n)) as [[[[g1 o1] e1] c1] u1].
  destruct (apply_all feat provider x (s_bgp n) None (ilist attrs n) ibgp true (map (cleaned attrs) (s_ngb n')) true (s_clear n')) as [[[[g1' o1'] e1'] c1'] u1'].
  cbn [fst snd] in A. destruct A as [A1 A2]. subst o1'. destruct o1.
  - pose proof (apply_intfs_like x (s_bgp n) (elist attrs n) (s_intf n) g1 g1' c1 c1' NE A1) as B.
    destruct (apply_intfs feat provider x (s_bgp n) (elist attrs n) (s_intf n) g1 c1) as [[[g2 e2] c2] u2].
    destruct (apply_intfs feat provider x (s_bgp n) (elist attrs n) (s_intf n) g1' c1') as [[[g2' e2'] c2'] u2']. exact B.
  - exact A1.
Qed.

(* ---------- processing of route servers ---------- *)

Definition ready (t : dict snode) : Prop :=
  NoDup (dkeys t) /\ plain attrs /\ ~ In "rs_client" attrs /\ ~ In "_zapped" attrs /\
  forall x n, dget x t = Some n -> known attrs n /\
    forall g, In g (s_ngb n) ->
      dget "rs" (g_d g) = None /\ dget "rs_client" (g_d g) = None /\ dget "_zapped" (g_d g) = None /\ g_name g <> x /\
      (g_type g = "ebgp" -> exists z, dget "ifindex" (g_d g) = Some (VInt z)).

Lemma rs_session_serves : forall g, rs_session g = true <-> serves g.
Proof.
  intro g. unfold rs_session, serves, set_to, vget. rewrite !andb_true_iff, negb_true_iff, listed_session. unfold session.
  assert (ibgp g = false <-> g_type g <> "ibgp") as I.
  { unfold ibgp. apply String.eqb_neq. }
  rewrite I. split.
  - intros [[[S|S] V] N]; [contradiction|]. split; [exact S|]. destruct (dget "rs" (g_d g)) as [v|]; [|discriminate V].
    exists v. split; [reflexivity | exact V].
  - intros [T [v [G V]]]. rewrite G, T. split; [split; [right; reflexivity | exact V] | discriminate].
Qed.

Definition R (g0 : ng) (z c i : bool) (g : ng) : Prop :=
  g_vrf g = g_vrf g0 /\
  forall k, dget k (g_d g) =
    if String.eqb k "_zapped" then if z then Some (VBool true) else None
    else if String.eqb k "rs_client" then if c then Some (VBool true) else None
    else if String.eqb k "rs" && i then None
    else if z && memS k ["ipv4"; "ipv6"; "local_if"; "ifindex"] then None
    else dget k (g_d g0).

Lemma zap_get : forall g k, dget k (g_d (zap g)) =
  if String.eqb k "_zapped" then Some (VBool true) else if memS k ["ipv4"; "ipv6"; "local_if"; "ifindex"] then None else dget k (g_d g).
Proof.
  intros g k. unfold zap. cbn [set_d g_d]. destruct (String.eqb k "_zapped") eqn:E.
  - apply String.eqb_eq in E. subst k. apply dget_dset_same.
  - apply String.eqb_neq in E. rewrite dget_dset_other by exact E. apply dget_pops.
Qed.

Lemma R_zap : forall g0 z c i g, R g0 z c i g -> R g0 true c i (zap g).
Proof.
  intros g0 z c i g [V D]. split; [exact V|]. intro k. rewrite zap_get, D.
  destruct (String.eqb k "_zapped"); [reflexivity|]. cbn [andb].
  destruct (memS k ["ipv4"; "ipv6"; "local_if"; "ifindex"]) eqn:M; [|rewrite andb_false_r; reflexivity].
  apply memS_true in M. cbn [In] in M. destruct M as [<-|[<-|[<-|[<-|[]]]]]; reflexivity.
Qed.

Lemma R_client : forall g0 z c i g, R g0 z c i g -> R g0 z true i (set_d g (dset "rs_client" (VBool true) (g_d g))).
Proof.
  intros g0 z c i g [V D]. split; [exact V|]. intro k. cbn [set_d g_d]. destruct (String.eqb k "rs_client") eqn:E.
  - apply String.eqb_eq in E. subst k. rewrite dget_dset_same. reflexivity.
  - pose proof E as E2. apply String.eqb_neq in E2. rewrite dget_dset_other by exact E2. rewrite D, E. reflexivity.
Qed.

Lemma R_pop : forall g0 z c i g, R g0 z c i g -> R g0 z c true (set_d g (dpop "rs" (g_d g))).
Proof.
  intros g0 z c i g [V D]. split; [exact V|]. intro k. cbn [set_d g_d]. destruct (String.eqb k "rs") eqn:E.
  - apply String.eqb_eq in E. subst k. rewrite dget_dpop_same. reflexivity.
  - pose proof E as E2. apply String.eqb_neq in E2. rewrite dget_dpop_other by exact E2. rewrite D, E. reflexivity.
Qed.

Lemma R_same : forall g0 z c i g, R g0 z c i g -> g_name g = g_name g0 /\ g_type g = g_type g0 /\
  listed g = listed g0 /\ ibgp g = ibgp g0 /\ vget "rs" (g_d g) = negb i && vget "rs" (g_d g0).
Proof.
  intros g0 z c i g [V D].
  assert (g_type g = g_type g0) as T. { apply str_of_same. rewrite D. cbn. rewrite andb_false_r. reflexivity. }
  refine (conj _ (conj T (conj _ (conj _ _)))).
  - apply str_of_same. rewrite D. cbn. rewrite andb_false_r. reflexivity.
  - unfold listed, ibgp, ebgp. rewrite T. reflexivity.
  - unfold ibgp. rewrite T. reflexivity.
  - unfold vget. rewrite D. cbn. rewrite andb_false_r. destruct i; reflexivity.
Qed.

Section State.
Variable t0 : dict snode.
Hypothesis RD : ready t0.
Let base := sessions_of t0.

(* route server sessions with node y that node x has already processed *)
Definition rsd (dn : string -> nat -> bool) (x y : string) : Prop :=
  exists m h, nth_error (base x) m = Some h /\ rs_session h = true /\ g_name h = y /\ dn x m = true.

Definition At (st : string -> bool) (dn : string -> nat -> bool) (y : string) (n0 : snode) (k : nat) (gb g : ng) : Prop :=
  exists g0 z c,
    nth_error (if st y then base y else s_ngb n0) k = Some g0 /\
    R g0 z c (ibgp gb && vget "rs" (g_d gb) && dn y k) g /\
    (z = true <-> rs_session gb = true /\ rsd dn (g_name gb) y /\ dn y k = true) /\
    (c = true -> listed gb = true /\ rsd dn (g_name gb) y) /\
    (rs_session gb = false -> listed gb = true -> rsd dn (g_name gb) y -> c = true).

Definition NodeOk (st : string -> bool) (dn : string -> nat -> bool) (y : string) (n0 n : snode) : Prop :=
  s_module n = s_module n0 /\ s_bgp n = s_bgp n0 /\ s_intf n = s_intf n0 /\ length (s_ngb n) = length (s_ngb n0) /\
  forall k gb, nth_error (base y) k = Some gb -> exists g, nth_error (s_ngb n) k = Some g /\ At st dn y n0 k gb g.

Definition Inv (ts : dict snode) (st : string -> bool) (dn : string -> nat -> bool) : Prop :=
  dkeys ts = dkeys t0 /\ forall y n0, dget y t0 = Some n0 -> exists n, dget y ts = Some n /\ NodeOk st dn y n0 n.

Lemma base_kin : forall y n0, dget y t0 = Some n0 ->
  Forall2 (fun g gb => kin g gb /\ g_name gb <> y) (s_ngb n0) (base y).
Proof.
  intros y n0 G. destruct RD as [_ [P [NR [NZ Q]]]]. destruct (Q y n0 G) as [K Q2].
  unfold base, sessions_of. rewrite G.
  assert (Forall2 kin (s_ngb n0) (if memS "bgp" (s_module n0) then s_ngb (fst (local_part attrs feat provider y n0)) else s_ngb n0)) as F.
  { destruct (memS "bgp" (s_module n0)); [exact (local_part_kin y n0 K P NR NZ)|].
    clear. induction (s_ngb n0) as [|g r IH]; constructor; [|exact IH]. repeat split. intros E v H. congruence. }
  assert (forall g, In g (s_ngb n0) -> g_name g <> y) as NM by (intros g I; apply (Q2 g I)).
  clear -F NM. induction F as [|a b l l' H F IH]; constructor.
  - split; [exact H|]. destruct H as [_ [E _]]. rewrite E. apply NM. left. reflexivity.
  - apply IH. intros g I. apply NM. right. exact I.
Qed.

Lemma Forall2_nth : forall (S : ng -> ng -> Prop) l l' k b, Forall2 S l l' -> nth_error l' k = Some b ->
  exists a, nth_error l k = Some a /\ S a b.
Proof.
  intros S l l' k b F. revert k. induction F as [|x y l l' H F IH]; intros k E; [destruct k; discriminate E|].
  destruct k as [|k]; [injection E as <-; exists x; split; [reflexivity | exact H] | exact (IH k E)].
Qed.

Lemma base_length : forall y n0, dget y t0 = Some n0 -> length (base y) = length (s_ngb n0).
Proof. intros y n0 G. symmetry. exact (Forall2_length (base_kin y n0 G)). Qed.

Lemma At_ext : forall st dn dn' y n0 k gb g, At st dn y n0 k gb g -> dn' y k = dn y k ->
  (rsd dn (g_name gb) y <-> rsd dn' (g_name gb) y) -> At st dn' y n0 k gb g.
Proof.
  intros st dn dn' y n0 k gb g [g0 [z [c [N [RR [Z [C1 C2]]]]]]] E X. exists g0, z, c. rewrite E.
  refine (conj N (conj RR (conj _ (conj _ _)))); [tauto | intro H; destruct (C1 H); tauto | tauto].
Qed.

Lemma NodeOk_ext : forall st dn dn' y n0 n, NodeOk st dn y n0 n ->
  (forall k gb, nth_error (base y) k = Some gb -> dn' y k = dn y k /\ (rsd dn (g_name gb) y <-> rsd dn' (g_name gb) y)) ->
  NodeOk st dn' y n0 n.
Proof.
  intros st dn dn' y n0 n [A [B [C [D E]]]] X. refine (conj A (conj B (conj C (conj D _)))).
  intros k gb N. destruct (E k gb N) as [g [G T]]. exists g. split; [exact G|]. destruct (X k gb N) as [X1 X2].
  exact (At_ext _ _ _ _ _ _ _ _ T X1 X2).
Qed.

Lemma Inv_ext : forall ts st st' dn dn', Inv ts st dn ->
  (forall y, In y (dkeys t0) -> st' y = st y) ->
  (forall y k gb, nth_error (base y) k = Some gb -> dn' y k = dn y k) -> Inv ts st' dn'.
Proof.
  intros ts st st' dn dn' [K Q] S D. split; [exact K|]. intros y n0 G. destruct (Q y n0 G) as [n [GN OK]].
  exists n. split; [exact GN|].
  assert (forall x z, rsd dn x z <-> rsd dn' x z) as X.
  { intros x z. split; intros [m [h [A [B [C E]]]]]; exists m, h; refine (conj A (conj B (conj C _)));
      pose proof (D x m h A); congruence. }
  apply (NodeOk_ext _ dn dn') in OK; [|intros k gb N; split; [exact (D y k gb N) | apply X]].
  destruct OK as [A [B [C [E F]]]]. refine (conj A (conj B (conj C (conj E _)))).
  intros k gb N. destruct (F k gb N) as [g [H T]]. exists g. split; [exact H|]. unfold At in *.
  rewrite (S y) by exact (dget_Some_key _ _ G). exact T.
Qed.

Lemma set_nth_get : forall i x l k, nth_error (set_nth i x l) k =
  if Nat.eqb k i then match nth_error l k with Some _ => Some x | None => None end else nth_error l k.
Proof.
  induction i as [|i IH]; intros x l k; destruct l as [|y l]; destruct k as [|k]; cbn; try reflexivity.
  - destruct (Nat.eqb k i); reflexivity.
  - apply IH.
Qed.

Lemma set_nth_length : forall i x l, length (set_nth i x l) = length l.
Proof. induction i as [|i IH]; intros x [|y l]; cbn; try reflexivity. rewrite IH. reflexivity. Qed.

(* one session of a route server *)
Section Step.
Variables (st : string -> bool) (a : string).
Definition dna (j : nat) (y : string) (k : nat) : bool := if String.eqb y a then Nat.ltb k j else st y.

Lemma dna_a : forall j k, dna j a k = Nat.ltb k j.
Proof. intros j k. unfold dna. rewrite String.eqb_refl. reflexivity. Qed.
Lemma dna_other : forall j y k, y <> a -> dna j y k = st y.
Proof. intros j y k N. unfold dna. apply String.eqb_neq in N. rewrite N. reflexivity. Qed.

Lemma rsd_step : forall j hb x y, nth_error (base a) j = Some hb ->
  (rsd (dna (S j)) x y <-> rsd (dna j) x y \/ x = a /\ rs_session hb = true /\ g_name hb = y).
Proof.
  intros j hb x y N. split.
  - intros [m [h [A [B [C D]]]]]. destruct (string_dec x a) as [->|NE].
    + rewrite dna_a in D. apply Nat.ltb_lt in D. destruct (Nat.eq_dec m j) as [->|NJ].
      * right. assert (h = hb) as -> by congruence. auto.
      * left. exists m, h. refine (conj A (conj B (conj C _))). rewrite dna_a. apply Nat.ltb_lt. lia.
    + left. exists m, h. rewrite dna_other in * by exact NE. auto.
  - intros [[m [h [A [B [C D]]]]]|[-> [B C]]].
    + exists m, h. refine (conj A (conj B (conj C _))). destruct (string_dec x a) as [->|NE].
      * rewrite dna_a in *. apply Nat.ltb_lt in D. apply Nat.ltb_lt. lia.
      * rewrite dna_other in * by exact NE. exact D.
    + exists j, hb. refine (conj N (conj B (conj C _))). rewrite dna_a. apply Nat.ltb_lt. lia.
Qed.

Lemma rs_one_inv : forall ts j, st a = true -> In a (dkeys t0) -> Inv ts st (dna j) ->
  Inv (fst (rs_one feat provider a ts j)) st (dna (S j)).
Proof.
  intros ts j SA IA [KS Q].
  destruct (dget a t0) as [a0|] eqn:A0; [|apply dget_None in A0; contradiction].
  destruct (Q a a0 A0) as [n [GN OKN]]. unfold rs_one. rewrite GN.
  pose proof OKN as [M1 [M2 [M3 [M4 M5]]]].
  destruct (nth_error (base a) j) as [hb|] eqn:HB.
  2: { assert (nth_error (s_ngb n) j = None) as E.
       { apply nth_error_None. apply nth_error_None in HB. rewrite (base_length a a0 A0) in HB. lia. }
       rewrite E. cbn [fst]. apply (Inv_ext ts st st (dna j)); [split; assumption | reflexivity|].
       intros y k gb N. destruct (string_dec y a) as [->|NE]; [|rewrite !dna_other by exact NE; reflexivity].
       rewrite !dna_a. assert (k < length (base a)) as L by (apply nth_error_Some; congruence).
       apply nth_error_None in HB. destruct (Nat.ltb_spec k j); destruct (Nat.ltb_spec k (S j)); try reflexivity; lia. }
  destruct (M5 j hb HB) as [g [GG TA]]. rewrite GG.
  destruct TA as [g0 [z [c [N0 [RR [Z [C1 C2]]]]]]]. rewrite SA in N0. assert (g0 = hb) as -> by congruence.
  assert (dna j a j = false) as DF by (rewrite dna_a; apply Nat.ltb_irrefl).
  assert (dna (S j) a j = true) as DT by (rewrite dna_a; apply Nat.ltb_lt; lia).
  rewrite DF in *. rewrite andb_false_r in RR.
  assert (z = false) as -> by (destruct z; [|reflexivity]; destruct (proj1 Z eq_refl) as [_ [_ X]]; discriminate X).
  destruct (R_same _ _ _ _ _ RR) as [EN [_ [EL [EI EV]]]]. cbn [negb andb] in EV.
  assert (g_name hb <> a) as NS by (destruct (Forall2_nth _ _ _ _ _ (base_kin a a0 A0) HB) as [? [_ [_ X]]]; exact X).
  (* sessions other than this one, as long as they are not changed *)
  assert (forall y n0 k gb g', dget y t0 = Some n0 -> nth_error (base y) k = Some gb -> At st (dna j) y n0 k gb g' ->
            ~ (y = a /\ k = j) -> ~ (rs_session hb = true /\ y = g_name hb /\ g_name gb = a) -> At st (dna (S j)) y n0 k gb g') as KEEP.
  { intros y n0 k gb g' _ _ T NJ NB. apply (At_ext st (dna j)); [exact T | |].
    - destruct (string_dec y a) as [->|NE]; [|rewrite !dna_other by exact NE; reflexivity].
      rewrite !dna_a. destruct (Nat.ltb_spec k j); destruct (Nat.ltb_spec k (S j)); try reflexivity; try lia.
      exfalso. apply NJ. split; [reflexivity | lia].
    - rewrite (rsd_step j hb _ _ HB). split; [left; assumption|]. intros [X|[X1 [X2 X3]]]; [exact X|].
      exfalso. apply NB. auto. }
  rewrite EL, EV, EI, EN. destruct (listed hb && vget "rs" (g_d hb)) eqn:LV.
  - apply andb_true_iff in LV. destruct LV as [LV VV]. destruct (ibgp hb) eqn:IB.
    + (* IBGP *)
      assert (rs_session hb = false) as RF by (unfold rs_session; rewrite IB, andb_false_r; reflexivity).
      cbn [fst]. split.
      * rewrite dkeys_dset_mem; [exact KS|]. rewrite KS. exact IA.
      * intros y n0 GY. destruct (string_dec y a) as [->|NE].
        -- rewrite dget_dset_same. eexists. split; [reflexivity|]. assert (n0 = a0) as -> by congruence.
           refine (conj M1 (conj M2 (conj M3 (conj _ _)))); [cbn [set_ngb s_ngb]; rewrite set_nth_length; exact M4|].
           intros k gb NB. cbn [set_ngb s_ngb]. destruct (M5 k gb NB) as [g' [G' T']]. rewrite set_nth_get.
           destruct (Nat.eqb_spec k j) as [->|NJ].
           ++ rewrite GG. eexists. split; [reflexivity|]. assert (gb = hb) as -> by congruence.
              exists hb, false, c. rewrite SA, IB, VV, DT, RF.
              assert (forall x, rsd (dna (S j)) x a <-> rsd (dna j) x a) as RE.
              { intro x. rewrite (rsd_step j hb _ _ HB). rewrite RF. intuition discriminate. }
              rewrite RE. refine (conj HB (conj (R_pop _ _ _ _ _ RR) (conj _ (conj C1 _)))).
              ** split; [discriminate | intros [X _]; discriminate X].
              ** intros _. exact (C2 RF).
           ++ rewrite G'. exists g'. split; [reflexivity|]. apply (KEEP a a0 k gb g' A0 NB T'); [tauto|].
              rewrite RF. intros [X _]. discriminate X.
        -- destruct (Q y n0 GY) as [m [GM OKM]]. rewrite dget_dset_other by exact NE. exists m. split; [exact GM|].
           destruct OKM as [B1 [B2 [B3 [B4 B5]]]]. refine (conj B1 (conj B2 (conj B3 (conj B4 _)))).
           intros k gb NB. destruct (B5 k gb NB) as [g' [G' T']]. exists g'. split; [exact G'|].
           apply (KEEP y n0 k gb g' GY NB T'); [tauto|]. rewrite RF. intros [X _]. discriminate X.
    + (* a route server session *)
      assert (rs_session hb = true) as RT by (unfold rs_session; rewrite LV, VV, IB; reflexivity).
      set (b := g_name hb) in *. destruct (dget b ts) as [nb|] eqn:GB.
      2: { (* the neighbor is not a node *)
           assert (dget b t0 = None) as B0. { apply dget_None. rewrite <- KS. apply dget_None. exact GB. }
           cbn [fst]. split; [exact KS|]. intros y n0 GY. destruct (Q y n0 GY) as [m [GM OKM]]. exists m. split; [exact GM|].
           destruct OKM as [B1 [B2 [B3 [B4 B5]]]]. refine (conj B1 (conj B2 (conj B3 (conj B4 _)))).
           intros k gb NB. destruct (B5 k gb NB) as [g' [G' T']]. exists g'. split; [exact G'|].
           destruct (string_dec y a) as [->|NE]; [destruct (Nat.eq_dec k j) as [->|NJ]|].
           - assert (gb = hb) as -> by congruence. assert (g' = g) as -> by congruence. exists hb, false, c.
             rewrite SA, IB, DT. fold b.
             assert (forall dn, ~ rsd dn b a) as NR.
             { intros dn [m' [h [X _]]]. unfold base, sessions_of in X. rewrite B0 in X. destruct m'; discriminate X. }
             refine (conj HB (conj RR (conj _ (conj _ _)))).
             + split; [discriminate | intros [_ [X _]]; destruct (NR _ X)].
             + intro X. destruct (C1 X) as [_ Y]. destruct (NR _ Y).
             + intros _ _ X. destruct (NR _ X).
           - apply (KEEP a n0 k gb g' GY NB T'); [tauto | intros [_ [X _]]; apply NS; symmetry; exact X].
           - apply (KEEP y n0 k gb g' GY NB T'); [tauto|]. intros [_ [X _]]. congruence. }
      assert (exists b0, dget b t0 = Some b0) as [b0 GB0].
      { destruct (dget b t0) as [b0|] eqn:E; [exists b0; reflexivity|]. apply dget_None in E.
        rewrite <- KS in E. apply dget_None in E. congruence. }
      destruct (Q b b0 GB0) as [nb' [GB' OKB]]. assert (nb' = nb) as -> by congruence.
      destruct OKB as [B1 [B2 [B3 [B4 B5]]]].
      pose proof (base_kin b b0 GB0) as KB. pose proof (base_length b b0 GB0) as LB.
      (* the attribute rs of the sessions of the neighbor *)
      assert (forall m gb r, nth_error (base b) m = Some gb -> nth_error (s_ngb nb) m = Some r ->
                back a r = (listed gb && String.eqb (g_name gb) a) /\
                (listed gb = true -> vget "rs" (g_d r) = rs_session gb && st b)) as RB.
      { intros m gb r NB NR. destruct (B5 m gb NB) as [r' [NR' [r0 [z' [c' [N' [RR' _]]]]]]]. assert (r' = r) as -> by congruence.
        rewrite dna_other in RR' by exact NS.
        destruct (R_same _ _ _ _ _ RR') as [F1 [F2 [F3 [F4 F5]]]].
        destruct (Forall2_nth _ _ _ _ _ KB NB) as [gi [NI [[_ [K1 [K2 [_ _]]]] _]]].
        destruct (st b).
        - assert (r0 = gb) as -> by congruence. split; [unfold back; rewrite F1, F3; reflexivity|].
          intro L. rewrite F5. unfold rs_session. rewrite L. destruct (ibgp gb), (vget "rs" (g_d gb)); reflexivity.
        - assert (r0 = gi) as -> by congruence.
          assert (listed gi = listed gb) as LL by (unfold listed, ibgp, ebgp; rewrite K2; reflexivity).
          split; [unfold back; rewrite F1, F3, LL, K1; reflexivity|].
          intros _. rewrite F5, andb_false_r. destruct RD as [_ [_ [_ [_ RQ]]]].
          destruct (RQ b b0 GB0) as [_ RQ2]. destruct (RQ2 gi (nth_error_In _ _ NI)) as [X _].
          unfold vget. rewrite X, !andb_false_r. reflexivity. }
      assert (existsb (fun r => back a r && vget "rs" (g_d r)) (s_ngb nb) = true <-> rsd (dna j) b a) as EX.
      { rewrite existsb_exists. split.
        - intros [r [I X]]. apply In_nth_error in I. destruct I as [m I]. apply andb_true_iff in X. destruct X as [X1 X2].
          destruct (nth_error (base b) m) as [gb|] eqn:NB.
          2: { apply nth_error_None in NB. assert (m < length (s_ngb nb)) by (apply nth_error_Some; congruence). lia. }
          destruct (RB m gb r NB I) as [Y1 Y2]. rewrite Y1 in X1. apply andb_true_iff in X1. destruct X1 as [L NM].
          rewrite (Y2 L) in X2. apply andb_true_iff in X2. destruct X2 as [X3 X4]. apply String.eqb_eq in NM.
          exists m, gb. rewrite dna_other by exact NS. auto.
        - intros [m [gb [NB [X3 [NM X4]]]]]. rewrite dna_other in X4 by exact NS.
          destruct (B5 m gb NB) as [r [NR _]]. destruct (RB m gb r NB NR) as [Y1 Y2].
          assert (listed gb = true) as L by (unfold rs_session in X3; rewrite !andb_true_iff in X3; apply X3).
          exists r. split; [exact (nth_error_In _ _ NR)|]. rewrite Y1, (Y2 L), L, X3, X4, NM, String.eqb_refl. reflexivity. }
      assert (forall y n0, dget y t0 = Some n0 -> y <> a -> y <> b -> exists m, dget y ts = Some m /\ NodeOk st (dna (S j)) y n0 m) as OTHER.
      { intros y n0 GY NA NB'. destruct (Q y n0 GY) as [m [GM [E1 [E2 [E3 [E4 E5]]]]]]. exists m. split; [exact GM|].
        refine (conj E1 (conj E2 (conj E3 (conj E4 _)))). intros k gb NB. destruct (E5 k gb NB) as [g' [G' T']].
        exists g'. split; [exact G'|]. apply (KEEP y n0 k gb g' GY NB T'); [tauto | intros [_ [X _]]; contradiction]. }
      destruct (rs_remote feat provider a b nb) as [nb2 e] eqn:RM.
      assert (nb2 = fst (rs_remote feat provider a b nb)) as EB by (rewrite RM; reflexivity).
      assert (NodeOk st (dna (S j)) b b0 nb2) as OKB2.
      { subst nb2. unfold rs_remote. cbn [fst]. refine (conj B1 (conj B2 (conj B3 (conj _ _)))); cbn [s_ngb]; [rewrite map_length; exact B4|].
        intros m gb NB. destruct (B5 m gb NB) as [r [NR TR]]. rewrite nth_error_map, NR. cbn [option_map].
        eexists. split; [reflexivity|]. destruct (RB m gb r NB NR) as [Y1 Y2]. rewrite Y1.
        destruct (listed gb && String.eqb (g_name gb) a) eqn:BK.
        2: { destruct (string_dec (g_name gb) a) as [NM|NM].
             - rewrite NM, String.eqb_refl, andb_true_r in BK.
               assert (rs_session gb = false) as RF by (unfold rs_session; rewrite BK; reflexivity).
               destruct TR as [r0 [z' [c' [N' [RR' [Z' [C1' C2']]]]]]]. exists r0, z', c'.
               rewrite dna_other in * by exact NS. rewrite RF, BK in *.
               refine (conj N' (conj RR' (conj _ (conj _ _)))).
               + rewrite Z'. split; intros [X _]; discriminate X.
               + intro X. destruct (C1' X) as [Y _]. discriminate Y.
               + intros _ X. discriminate X.
             - apply (KEEP b b0 m gb r GB0 NB TR); [intros [X _]; exact (NS X) | intros [_ [_ X]]; exact (NM X)]. }
        apply andb_true_iff in BK. destruct BK as [L NM]. apply String.eqb_eq in NM. rewrite (Y2 L).
        assert (rsd (dna (S j)) (g_name gb) b) as RSD by (rewrite NM; apply (rsd_step j hb _ _ HB); right; auto).
        destruct TR as [r0 [z' [c' [N' [RR' [Z' [C1' C2']]]]]]].
        rewrite dna_other in Z' by exact NS. rewrite dna_other in RR' by exact NS.
        destruct (rs_session gb && st b) eqn:ZZ.
        - apply andb_true_iff in ZZ. destruct ZZ as [Z1 Z2]. exists r0, true, c'. rewrite dna_other by exact NS.
          refine (conj N' (conj (R_zap _ _ _ _ _ RR') (conj _ (conj _ _)))).
          + split; auto.
          + auto.
          + intro X. congruence.
        - exists r0, z', true. rewrite dna_other by exact NS.
          refine (conj N' (conj (R_client _ _ _ _ _ RR') (conj _ (conj _ _)))); auto.
          rewrite Z'. split; intros [X [_ Y]]; rewrite X, Y in ZZ; discriminate ZZ. }
      assert (exists n2, (fst (if existsb (fun r => back a r && vget "rs" (g_d r)) (s_ngb nb)
                then match dget a (dset b nb2 ts) with
                     | Some n1 => (dset a (set_ngb n1 (set_nth j (zap g) (s_ngb n1))) (dset b nb2 ts), e)
                     | None => (dset b nb2 ts, e)
                     end
                else (dset b nb2 ts, e)) = dset a n2 (dset b nb2 ts) \/
                fst (if existsb (fun r => back a r && vget "rs" (g_d r)) (s_ngb nb)
                then match dget a (dset b nb2 ts) with
                     | Some n1 => (dset a (set_ngb n1 (set_nth j (zap g) (s_ngb n1))) (dset b nb2 ts), e)
                     | None => (dset b nb2 ts, e)
                     end
                else (dset b nb2 ts, e)) = dset b nb2 ts /\ n2 = n) /\ NodeOk st (dna (S j)) a a0 n2) as [n2 [TS OKA]].
      { assert (a <> b) as NS2 by (intro X; exact (NS (eq_sym X))). rewrite dget_dset_other by exact NS2. rewrite GN.
        assert (rsd (dna (S j)) b a <-> rsd (dna j) b a) as RE.
        { rewrite (rsd_step j hb _ _ HB). split; [intros [X|[X _]]; [exact X | contradiction] | auto]. }
        destruct (existsb (fun r => back a r && vget "rs" (g_d r)) (s_ngb nb)) eqn:EE.
        - eexists. split; [left; reflexivity|]. pose proof (proj1 EX eq_refl) as EE2.
          refine (conj M1 (conj M2 (conj M3 (conj _ _)))); cbn [set_ngb s_ngb]; [rewrite set_nth_length; exact M4|].
          intros k gb NB. destruct (M5 k gb NB) as [g' [G' T']]. rewrite set_nth_get.
          destruct (Nat.eqb_spec k j) as [->|NJ].
          + rewrite GG. eexists. split; [reflexivity|]. assert (gb = hb) as -> by congruence.
            exists hb, true, c. rewrite SA, DT, IB. fold b. rewrite RE.
            refine (conj HB (conj (R_zap _ _ _ _ _ RR) (conj _ (conj C1 C2)))). split; auto.
          + rewrite G'. exists g'. split; [reflexivity|]. apply (KEEP a a0 k gb g' A0 NB T'); [tauto | intros [_ [X _]]; contradiction].
        - exists n. split; [right; split; reflexivity|].
          assert (~ rsd (dna j) b a) as NR by (intro X; apply EX in X; discriminate X).
          refine (conj M1 (conj M2 (conj M3 (conj M4 _)))).
          intros k gb NB. destruct (M5 k gb NB) as [g' [G' T']]. exists g'. split; [exact G'|].
          destruct (Nat.eq_dec k j) as [->|NJ].
          + assert (gb = hb) as -> by congruence. assert (g' = g) as -> by congruence.
            exists hb, false, c. rewrite SA, DT, IB. fold b. rewrite RE.
            refine (conj HB (conj RR (conj _ (conj C1 C2)))). split; [discriminate | intros [_ [X _]]; contradiction].
          + apply (KEEP a a0 k gb g' A0 NB T'); [tauto | intros [_ [X _]]; contradiction]. }
      assert (In b (dkeys ts)) as IB2 by exact (dget_Some_key _ _ GB).
      assert (dkeys (dset b nb2 ts) = dkeys t0) as KB2 by (rewrite dkeys_dset_mem by exact IB2; exact KS).
      destruct TS as [TS|[TS EN2]]; rewrite TS.
      * split; [rewrite dkeys_dset_mem; [exact KB2 | rewrite KB2; exact IA]|].
        intros y n0 GY. destruct (string_dec y a) as [->|NA].
        -- rewrite dget_dset_same. exists n2. split; [reflexivity|]. assert (n0 = a0) as -> by congruence. exact OKA.
        -- rewrite dget_dset_other by exact NA. destruct (string_dec y b) as [->|NB'].
           ++ rewrite dget_dset_same. exists nb2. split; [reflexivity|]. assert (n0 = b0) as -> by congruence. exact OKB2.
           ++ rewrite dget_dset_other by exact NB'. exact (OTHER y n0 GY NA NB').
      * subst n2. split; [exact KB2|]. intros y n0 GY. destruct (string_dec y b) as [->|NB'].
        -- rewrite dget_dset_same. exists nb2. split; [reflexivity|]. assert (n0 = b0) as -> by congruence. exact OKB2.
        -- rewrite dget_dset_other by exact NB'. destruct (string_dec y a) as [->|NA]; [|exact (OTHER y n0 GY NA NB')].
           exists n. split; [exact GN|]. assert (n0 = a0) as -> by congruence. exact OKA.
  - assert (rs_session hb = false) as RF by (unfold rs_session; rewrite LV; reflexivity).
    assert (ibgp hb && vget "rs" (g_d hb) = false) as IF.
    { destruct (ibgp hb) eqn:IB; [|reflexivity]. unfold listed in LV. rewrite IB in LV. exact LV. }
    cbn [fst]. split; [exact KS|]. intros y n0 GY. destruct (Q y n0 GY) as [m [GM [E1 [E2 [E3 [E4 E5]]]]]]. exists m. split; [exact GM|].
    refine (conj E1 (conj E2 (conj E3 (conj E4 _)))). intros k gb NB. destruct (E5 k gb NB) as [g' [G' T']].
    exists g'. split; [exact G'|]. destruct (string_dec y a) as [->|NE]; [destruct (Nat.eq_dec k j) as [->|NJ]|].
    + assert (gb = hb) as -> by congruence. assert (n0 = a0) as -> by congruence. assert (m = n) as -> by congruence.
      assert (g' = g) as -> by congruence.
      assert (forall x, rsd (dna (S j)) x a <-> rsd (dna j) x a) as RE.
      { intro x. rewrite (rsd_step j hb _ _ HB), RF. intuition discriminate. }
      exists hb, false, c. rewrite SA, DT, IF, RE, RF.
      refine (conj HB (conj RR (conj _ (conj C1 (fun _ => C2 RF))))). split; [discriminate | intros [X _]; discriminate X].
    + apply (KEEP a n0 k gb g' GY NB T'); [tauto | rewrite RF; intros [X _]; discriminate X].
    + apply (KEEP y n0 k gb g' GY NB T'); [tauto | rewrite RF; intros [X _]; discriminate X].
Qed.
End Step.

Lemma rs_loop_inv : forall st a m j ts, st a = true -> In a (dkeys t0) -> Inv ts st (dna st a j) ->
  Inv (fst (rs_loop feat provider a (seq j m) ts)) st (dna st a (j + m)).
Proof.
  intros st a. induction m as [|m IH]; intros j ts SA IA H; cbn [seq rs_loop].
  - rewrite Nat.add_0_r. exact H.
  - pose proof (rs_one_inv st a ts j SA IA H) as H1.
    destruct (rs_one feat provider a ts j) as [t1 e1]. cbn [fst] in H1.
    specialize (IH (S j) t1 SA IA H1). rewrite <- Nat.add_succ_comm.
    destruct (rs_loop feat provider a (seq (S j) m) t1) as [t2 e2]. exact IH.
Qed.

Lemma Forall2_intro : forall (S : ng -> ng -> Prop) l l', length l = length l' ->
  (forall k b, nth_error l k = Some b -> exists a, nth_error l' k = Some a /\ S b a) -> Forall2 S l l'.
Proof.
  intros S l. induction l as [|b l IH]; intros l' L Q.
  - destruct l'; [constructor | discriminate L].
  - destruct l' as [|a l']; [discriminate L|]. constructor.
    + destruct (Q 0 b eq_refl) as [x [E H]]. injection E as <-. exact H.
    + apply IH; [injection L; auto|]. intros k c E. exact (Q (Datatypes.S k) c E).
Qed.

Lemma Forall2_nth_l : forall (S : ng -> ng -> Prop) l l' k a, Forall2 S l l' -> nth_error l k = Some a ->
  exists b, nth_error l' k = Some b /\ S a b.
Proof.
  intros S l l' k a F. revert k. induction F as [|x y l l' H F IH]; intros k E; [destruct k; discriminate E|].
  destruct k as [|k]; [injection E as <-; exists y; split; [reflexivity | exact H] | exact (IH k E)].
Qed.

Lemma existsb_like : forall l l', Forall2 like l l' -> existsb rs_session l' = existsb rs_session l.
Proof.
  intros l l' F. induction F as [|g g' l l' L F IH]; [reflexivity|]. cbn [existsb]. rewrite IH. f_equal.
  destruct (like_name _ _ L) as [_ [_ [E1 [E2 _]]]]. destruct L as [_ D].
  unfold rs_session, vget. rewrite E1, E2, D by discriminate. reflexivity.
Qed.

Definition stp (p : list string) (y : string) : bool := memS y p.
Definition dnp (p : list string) (y : string) (k : nat) : bool := memS y p.

Lemma memS_cons : forall y x p, memS y (x :: p) = String.eqb y x || memS y p.
Proof. reflexivity. Qed.

Lemma node_step_inv : forall p x ts, In x (dkeys t0) -> ~ In x p -> Inv ts (stp p) (dnp p) ->
  let r := node_step attrs feat provider x ts in
  Inv (fst (fst r)) (stp (x :: p)) (dnp (x :: p)) /\ snd r = existsb rs_session (base x).
Proof.
  intros p x ts IX NP I. cbv zeta. pose proof I as [KS Q].
  destruct (dget x t0) as [n0|] eqn:G0; [|apply dget_None in G0; contradiction].
  destruct (Q x n0 G0) as [n [GN OK]]. unfold node_step. rewrite GN.
  pose proof OK as [M1 [M2 [M3 [M4 M5]]]]. rewrite M1.
  pose proof RD as [_ [P [NR [NZ RQ]]]]. destruct (RQ x n0 G0) as [K RQ2].
  assert (memS x p = false) as NX by (apply memS_false; exact NP).
  destruct (memS "bgp" (s_module n0)) eqn:BG.
  - assert (Forall2 like (s_ngb n0) (s_ngb n)) as LK.
    { apply Forall2_intro; [symmetry; exact M4|]. intros k gi NI.
      destruct (Forall2_nth_l _ _ _ _ _ (base_kin x n0 G0) NI) as [gb [NB _]].
      destruct (M5 k gb NB) as [g [NG [g0 [z [c [N' [RR [Z _]]]]]]]]. exists g. split; [exact NG|].
      unfold stp in N'. unfold dnp in RR, Z. rewrite NX in N', RR, Z. rewrite andb_false_r in RR.
      assert (g0 = gi) as -> by congruence.
      assert (z = false) as -> by (destruct z; [destruct (proj1 Z eq_refl) as [_ [_ X]]; discriminate X | reflexivity]).
      destruct RR as [V D]. split; [exact V|]. intros k' NK. rewrite D. apply String.eqb_neq in NK. rewrite NK.
      cbn [andb]. rewrite andb_false_r. destruct (String.eqb k' "_zapped") eqn:E; [|reflexivity].
      apply String.eqb_eq in E. subst k'. symmetry. apply (RQ2 gi (nth_error_In _ _ NI)). }
    assert (base x = s_ngb (fst (local_part attrs feat provider x n0))) as BX by (unfold base, sessions_of; rewrite G0, BG; reflexivity).
    pose proof (local_part_like x n0 n P K M2 M3 LK) as LL. rewrite <- BX in LL.
    assert (known attrs n) as KN by (intros kind a H; rewrite M2 in H; exact (K kind a H)).
    pose proof (local_part_kin x n KN P NR NZ) as LKIN.
    destruct (local_part_fields x n) as [F1 [F2 F3]].
    destruct (local_part attrs feat provider x n) as [n1 e1]. cbn [fst] in LL, LKIN, F1, F2, F3.
    assert (Inv (dset x n1 ts) (stp (x :: p)) (dna (stp (x :: p)) x 0)) as I0.
    { assert (forall y k, dna (stp (x :: p)) x 0 y k = dnp p y k) as DE.
      { intros y k. unfold dna, stp, dnp. rewrite memS_cons. destruct (String.eqb y x) eqn:E; [|reflexivity].
        apply String.eqb_eq in E. subst y. rewrite NX. reflexivity. }
      assert (forall u w, rsd (dna (stp (x :: p)) x 0) u w <-> rsd (dnp p) u w) as RE.
      { intros u w. unfold rsd. split; intros [m [h [A [B [C D]]]]]; exists m, h; rewrite DE in *; auto. }
      split; [rewrite dkeys_dset_mem; [exact KS | rewrite KS; exact IX]|].
      intros y ny GY. destruct (string_dec y x) as [->|NE].
      - rewrite dget_dset_same. exists n1. split; [reflexivity|]. assert (ny = n0) as -> by congruence.
        refine (conj (eq_trans F1 M1) (conj (eq_trans F2 M2) (conj (eq_trans F3 M3) (conj _ _)))).
        + rewrite <- M4. symmetry. exact (Forall2_length LKIN).
        + intros k gb NB. destruct (Forall2_nth_l _ _ _ _ _ LL NB) as [g1 [NG1 LG]]. exists g1. split; [exact NG1|].
          destruct (M5 k gb NB) as [g [NG [g0 [z [c [N' [RR [Z [C1 C2]]]]]]]]].
          destruct (Forall2_nth _ _ _ _ _ LKIN NG1) as [g' [NG' [_ [_ [_ [KK _]]]]]]. assert (g' = g) as -> by congruence.
          exists gb, z, c. rewrite DE, RE. refine (conj _ (conj _ (conj Z (conj C1 C2)))).
          * unfold stp. rewrite memS_cons, String.eqb_refl. exact NB.
          * unfold dnp in RR, Z |- *. rewrite NX in RR, Z |- *. rewrite andb_false_r in RR |- *.
            assert (z = false) as -> by (destruct z; [destruct (proj1 Z eq_refl) as [_ [_ X]]; discriminate X | reflexivity]).
            destruct LG as [V D]. destruct RR as [_ D2]. split; [exact V|]. intro k'. cbn [andb]. rewrite andb_false_r.
            destruct (String.eqb k' "_zapped") eqn:E1.
            { apply String.eqb_eq in E1. subst k'. rewrite KK by (cbn; tauto). rewrite D2. reflexivity. }
            destruct (String.eqb k' "rs_client") eqn:E2.
            { apply String.eqb_eq in E2. subst k'. rewrite KK by (cbn; tauto). rewrite D2. reflexivity. }
            apply D. apply String.eqb_neq. exact E2.
      - rewrite dget_dset_other by exact NE. destruct (Q y ny GY) as [m [GM OKM]]. exists m. split; [exact GM|].
        destruct OKM as [A1 [A2 [A3 [A4 A5]]]]. refine (conj A1 (conj A2 (conj A3 (conj A4 _)))).
        intros k gb NB. destruct (A5 k gb NB) as [g [NG T]]. exists g. split; [exact NG|].
        apply (At_ext _ _ (dna (stp (x :: p)) x 0)) in T; [|apply DE | symmetry; apply RE].
        unfold At, stp in *. rewrite memS_cons. apply String.eqb_neq in NE. rewrite NE. exact T. }
    assert (stp (x :: p) x = true) as SX by (unfold stp; rewrite memS_cons, String.eqb_refl; reflexivity).
    pose proof (rs_loop_inv (stp (x :: p)) x (length (s_ngb n1)) 0 (dset x n1 ts) SX IX I0) as I1. rewrite Nat.add_0_l in I1.
    destruct (rs_loop feat provider x (seq 0 (length (s_ngb n1))) (dset x n1 ts)) as [t2 e2]. cbn [fst snd] in *. split.
    + apply (Inv_ext t2 (stp (x :: p)) _ (dna (stp (x :: p)) x (length (s_ngb n1)))); [exact I1 | reflexivity|].
      intros y k gb NB. unfold dnp, dna, stp. rewrite memS_cons. destruct (String.eqb y x) eqn:E; [|reflexivity].
      apply String.eqb_eq in E. subst y. symmetry. cbn [orb]. apply Nat.ltb_lt. rewrite <- (Forall2_length LL).
      apply nth_error_Some. congruence.
    + exact (existsb_like _ _ LL).
  - assert (base x = s_ngb n0) as BX by (unfold base, sessions_of; rewrite G0, BG; reflexivity).
    assert (forall k gb, nth_error (base x) k = Some gb -> vget "rs" (g_d gb) = false) as NV.
    { intros k gb NB. rewrite BX in NB. destruct (RQ2 gb (nth_error_In _ _ NB)) as [X _]. unfold vget. rewrite X. reflexivity. }
    assert (forall k gb, nth_error (base x) k = Some gb -> rs_session gb = false) as NS.
    { intros k gb NB. unfold rs_session. rewrite (NV k gb NB), andb_false_r. reflexivity. }
    cbn [fst snd]. split.
    + assert (forall u w, rsd (dnp (x :: p)) u w <-> rsd (dnp p) u w) as RE.
      { intros u w. unfold rsd, dnp. split; intros [m [h [A [B [C D]]]]]; exists m, h; refine (conj A (conj B (conj C _))).
        - rewrite memS_cons in D. destruct (String.eqb u x) eqn:E; [|exact D]. apply String.eqb_eq in E. subst u.
          rewrite (NS m h A) in B. discriminate B.
        - rewrite memS_cons, D. apply orb_true_r. }
      split; [exact KS|]. intros y ny GY. destruct (Q y ny GY) as [m [GM OKM]]. exists m. split; [exact GM|].
      destruct OKM as [A1 [A2 [A3 [A4 A5]]]]. refine (conj A1 (conj A2 (conj A3 (conj A4 _)))).
      intros k gb NB. destruct (A5 k gb NB) as [g [NG T]]. exists g. split; [exact NG|].
      destruct (string_dec y x) as [->|NE].
      * destruct T as [g0 [z [c [N' [RR [Z [C1 C2]]]]]]]. exists g0, z, c. rewrite (RE (g_name gb) x).
        assert (ny = n0) as -> by congruence. unfold stp, dnp in *. rewrite NX in *. rewrite memS_cons, String.eqb_refl. cbn [orb].
        rewrite (NV k gb NB), (NS k gb NB) in *. rewrite andb_false_r in *. rewrite BX.
        refine (conj N' (conj RR (conj _ (conj C1 C2)))). rewrite Z. split; intros [X _]; discriminate X.
      * apply (At_ext _ _ (dnp (x :: p))) in T; [| |symmetry; apply RE].
        -- unfold At, stp in *. rewrite memS_cons. apply String.eqb_neq in NE. rewrite NE. exact T.
        -- unfold dnp. rewrite memS_cons. apply String.eqb_neq in NE. rewrite NE. reflexivity.
    + symmetry. apply not_true_is_false. intro X. apply existsb_exists in X. destruct X as [g [IG X]].
      apply In_nth_error in IG. destruct IG as [k IG]. rewrite (NS k g IG) in X. discriminate X.
Qed.

Lemma node_steps_inv : forall l p ts, incl l (dkeys t0) -> NoDup l -> (forall x, In x l -> ~ In x p) -> Inv ts (stp p) (dnp p) ->
  let r := node_steps attrs feat provider l ts in
  (exists q, (forall x, In x q <-> In x l \/ In x p) /\ Inv (fst (fst r)) (stp q) (dnp q)) /\
  (snd r = true <-> exists x, In x l /\ existsb rs_session (base x) = true).
Proof.
  induction l as [|x r IH]; intros p ts IL N D I; cbn [node_steps].
  - split; [exists p; split; [intro x; cbn [In]; tauto | exact I]|]. split; [discriminate | intros [x [[] _]]].
  - inversion N as [|y l NX NR]; subst.
    destruct (node_step_inv p x ts (IL x (or_introl eq_refl)) (D x (or_introl eq_refl)) I) as [I1 H1].
    destruct (node_step attrs feat provider x ts) as [[t1 e1] h1]. cbn [fst snd] in I1, H1.
    assert (incl r (dkeys t0)) as IR by (intros y J; apply IL; right; exact J).
    assert (forall y, In y r -> ~ In y (x :: p)) as DR.
    { intros y J [E|E]; [subst y; exact (NX J) | exact (D y (or_intror J) E)]. }
    specialize (IH (x :: p) t1 IR NR DR I1). cbv zeta in IH.
    destruct (node_steps attrs feat provider r t1) as [[t2 e2] h2]. cbn [fst snd] in *.
    destruct IH as [[q [Q1 Q2]] IH2]. split.
    + exists q. split; [|exact Q2]. intro y. rewrite Q1. cbn [In]. tauto.
    + rewrite orb_true_iff, IH2, H1. split.
      * intros [X|[y [J X]]]; [exists x; split; [left; reflexivity | exact X] | exists y; split; [right; exact J | exact X]].
      * intros [y [[J|J] X]]; [subst y; left; exact X | right; exists y; split; assumption].
Qed.

(* a session after all nodes were processed *)
Definition Fin (y : string) (gb g : ng) : Prop :=
  exists z c, R gb z c (ibgp gb && vget "rs" (g_d gb)) g /\
    (z = true <-> serves gb /\ rs_to t0 (g_name gb) y) /\
    (c = true -> session gb /\ rs_to t0 (g_name gb) y) /\
    (~ serves gb -> session gb -> rs_to t0 (g_name gb) y -> c = true).

Lemma Inv_Fin : forall ts q y n0, (forall x, In x q <-> In x (dkeys t0)) -> Inv ts (stp q) (dnp q) -> dget y t0 = Some n0 ->
  exists n, dget y ts = Some n /\ Forall2 (Fin y) (base y) (s_ngb n).
Proof.
  intros ts q y n0 E [_ Q] G. destruct (Q y n0 G) as [n [GN [_ [_ [_ [L M]]]]]]. exists n. split; [exact GN|].
  assert (forall u w, rsd (dnp q) u w <-> rs_to t0 u w) as RE.
  { intros u w. unfold rsd, rs_to, dnp. fold (base u). split.
    - intros [m [h [A [B [C D]]]]]. exists h. split; [exact (nth_error_In _ _ A)|]. split; [apply rs_session_serves; exact B | exact C].
    - intros [h [A [B C]]]. pose proof A as A'. apply In_nth_error in A. destruct A as [m A]. exists m, h.
      refine (conj A (conj (proj2 (rs_session_serves h) B) (conj C _))). apply memS_true, E.
      destruct (dget u t0) as [nu|] eqn:GU; [exact (dget_Some_key _ _ GU)|].
      unfold base, sessions_of in A'. rewrite GU in A'. destruct A'. }
  assert (memS y q = true) as MY by (apply memS_true, E; exact (dget_Some_key _ _ G)).
  apply Forall2_intro; [rewrite L; exact (base_length y n0 G)|]. intros k gb NB.
  destruct (M k gb NB) as [g [NG [g0 [z [c [N' [RR [Z [C1 C2]]]]]]]]]. exists g. split; [exact NG|]. exists z, c.
  unfold stp, dnp in N', RR, Z. rewrite MY in N', RR, Z. rewrite andb_true_r in RR. assert (g0 = gb) as -> by congruence.
  change (fun (y : string) (_ : nat) => memS y q) with (dnp q) in Z. rewrite RE in *. 
  refine (conj RR (conj _ (conj _ _))).
  - rewrite Z, rs_session_serves. tauto.
  - intro X. destruct (C1 X) as [X1 X2]. split; [apply listed_session; exact X1 | exact X2].
  - intros X1 X2. apply C2; [|apply listed_session; exact X2]. apply not_true_is_false. intro X. apply X1, rs_session_serves, X.
Qed.

Lemma ebgp_R : forall gb z c i g, R gb z c i g -> ebgp g = ebgp gb.
Proof. intros gb z c i g H. unfold ebgp. destruct (R_same _ _ _ _ _ H) as [_ [T _]]. rewrite T. reflexivity. Qed.

Lemma R_clean : forall gb c i g k, R gb false c i g -> k <> "_zapped" -> k <> "rs_client" -> k <> "rs" -> dget k (g_d g) = dget k (g_d gb).
Proof.
  intros gb c i g k [_ D] A B C. rewrite D. apply String.eqb_neq in A, B, C. rewrite A, B, C. reflexivity.
Qed.

(* cleanup of one session *)
Definition cond (x c : ng) : bool :=
  ebgp x && opt_veqb (dget "ifindex" (g_d x)) (dget "ifindex" (g_d c)) && negb (dmem "rs" (g_d x)) && negb (dmem "rs_client" (g_d x)).

Definition mesh_one (cs : list ng) (x : ng) : ng := fold_left (fun y c => if cond y c then zap y else y) cs x.

Lemma mesh_map : forall cs l,
  fold_left (fun acc c => map (fun x => if cond x c then zap x else x) acc) cs l = map (mesh_one cs) l.
Proof.
  induction cs as [|c r IH]; intro l; cbn [fold_left].
  - symmetry. apply map_id.
  - rewrite IH, map_map. apply map_ext. reflexivity.
Qed.

Lemma zapped_zap : forall g, dmem "_zapped" (g_d (zap g)) = true.
Proof. intro g. unfold dmem. rewrite zap_get. reflexivity. Qed.

Lemma mesh_one_zapped : forall cs x, dmem "_zapped" (g_d x) = true -> dmem "_zapped" (g_d (mesh_one cs x)) = true.
Proof.
  unfold mesh_one. induction cs as [|c r IH]; intros x H; [exact H|]. cbn [fold_left]. apply IH.
  destruct (cond x c); [apply zapped_zap | exact H].
Qed.

Lemma mesh_one_spec : forall cs x,
  (existsb (cond x) cs = true -> dmem "_zapped" (g_d (mesh_one cs x)) = true) /\
  (existsb (cond x) cs = false -> mesh_one cs x = x).
Proof.
  induction cs as [|c r IH]; intro x; cbn [existsb]; [split; [discriminate | reflexivity]|].
  change (mesh_one (c :: r) x) with (mesh_one r (if cond x c then zap x else x)).
  destruct (cond x c); cbn [orb].
  - split; [intros _; apply mesh_one_zapped, zapped_zap | discriminate].
  - apply IH.
Qed.

Lemma opt_veqb_true : forall a b, opt_veqb a b = true <-> a = b.
Proof.
  intros [a|] [b|]; cbn [opt_veqb]; try (split; [discriminate | discriminate]); [|tauto].
  rewrite veqb_true. split; [intros ->; reflexivity | intro H; injection H; auto].
Qed.

Lemma Forall2_In_r : forall (S : ng -> ng -> Prop) l l' b, Forall2 S l l' -> In b l' -> exists a, In a l /\ S a b.
Proof.
  intros S l l' b F I. apply In_nth_error in I. destruct I as [k I]. destruct (Forall2_nth _ _ _ _ _ F I) as [a [N H]].
  exists a. split; [exact (nth_error_In _ _ N) | exact H].
Qed.

Lemma Forall2_In_l : forall (S : ng -> ng -> Prop) l l' a, Forall2 S l l' -> In a l -> exists b, In b l' /\ S a b.
Proof.
  intros S l l' a F I. apply In_nth_error in I. destruct I as [k I]. destruct (Forall2_nth_l _ _ _ _ _ F I) as [b [N H]].
  exists b. split; [exact (nth_error_In _ _ N) | exact H].
Qed.

Lemma base_facts : forall y n0 gb, dget y t0 = Some n0 -> In gb (base y) ->
  (forall v, dget "rs" (g_d gb) = Some v -> truthy v = true) /\
  (g_type gb = "ebgp" -> exists z, dget "ifindex" (g_d gb) = Some (VInt z)).
Proof.
  intros y n0 gb G I. destruct (Forall2_In_r _ _ _ _ (base_kin y n0 G) I) as [gi [II [[_ [_ [T [K RS]]]] _]]].
  destruct RD as [_ [_ [_ [_ Q]]]]. destruct (Q y n0 G) as [_ Q2]. destruct (Q2 gi II) as [A [_ [_ [_ B]]]]. split.
  - exact (RS A).
  - intro E. rewrite T in E. destruct (B E) as [z X]. exists z. rewrite K by (cbn; tauto). exact X.
Qed.

Lemma Fin_kept : forall y n0 gb g c, dget y t0 = Some n0 -> In gb (base y) ->
  R gb false c (ibgp gb && vget "rs" (g_d gb)) g ->
  (c = true <-> session gb /\ rs_to t0 (g_name gb) y) -> kept t0 y gb g.
Proof.
  intros y n0 gb g c G I RR C. destruct (base_facts y n0 gb G I) as [TR _]. pose proof RR as [V D].
  assert (dget "_zapped" (g_d gb) = None) as NZ.
  { destruct (Forall2_In_r _ _ _ _ (base_kin y n0 G) I) as [gi [II [[_ [_ [_ [K _]]]] _]]]. rewrite K by (cbn; tauto).
    destruct RD as [_ [_ [_ [_ Q]]]]. destruct (Q y n0 G) as [_ Q2]. apply (Q2 gi II). }
  refine (conj V (conj _ (conj _ (conj _ (conj _ _))))).
  - intros k N1 N2. destruct (string_dec k "_zapped") as [->|N3]; [rewrite D, NZ; reflexivity|].
    exact (R_clean _ _ _ _ _ RR N3 N2 N1).
  - rewrite D. cbn. rewrite <- C. destruct c; split; congruence.
  - rewrite D. cbn. rewrite <- C. destruct c; congruence.
  - intro T. rewrite D. cbn. apply ibgp_type in T. rewrite T. cbn [andb]. unfold vget.
    destruct (dget "rs" (g_d gb)) as [v|] eqn:E; [rewrite (TR v eq_refl)|]; reflexivity.
  - intro T. rewrite D. cbn. destruct (ibgp gb) eqn:E; [apply ibgp_type in E; contradiction|]. reflexivity.
Qed.

Lemma serves_dec : forall g, serves g \/ ~ serves g.
Proof.
  intro g. destruct (rs_session g) eqn:E; [left; apply rs_session_serves; exact E|].
  right. intro H. apply rs_session_serves in H. congruence.
Qed.

Lemma mesh_kept : forall y n0 l, dget y t0 = Some n0 -> Forall2 (Fin y) (base y) l ->
  kept_list t0 y (base y) (remove_zapped (mesh_cleanup l)).
Proof.
  intros y n0 l G F. unfold mesh_cleanup. 
  change (fun (acc : list ng) (c : ng) => map (fun x => if ebgp x && opt_veqb (dget "ifindex" (g_d x)) (dget "ifindex" (g_d c)) &&
     negb (dmem "rs" (g_d x)) && negb (dmem "rs_client" (g_d x)) then zap x else x) acc)
    with (fun (acc : list ng) (c : ng) => map (fun x => if cond x c then zap x else x) acc).
  rewrite mesh_map. set (cs := filter (fun c => ebgp c && dmem "rs_client" (g_d c)) l).
  assert (forall gb g, In gb (base y) -> In g l -> Fin y gb g ->
            (stays t0 y gb /\ kept t0 y gb g /\ mesh_one cs g = g /\ dmem "_zapped" (g_d g) = false) \/
            (~ stays t0 y gb /\ dmem "_zapped" (g_d (mesh_one cs g)) = true)) as ONE.
  { intros gb g IB IG [z [c [RR [Z [C1 C2]]]]]. destruct (base_facts y n0 gb G IB) as [TR IX].
    pose proof RR as [V D]. destruct z.
    { right. split; [intros [S _]; apply S, Z; reflexivity|]. apply mesh_one_zapped. unfold dmem. rewrite D. reflexivity. }
    assert (~ (serves gb /\ rs_to t0 (g_name gb) y)) as NZ by (intro X; apply Z in X; discriminate X).
    assert (c = true <-> session gb /\ rs_to t0 (g_name gb) y) as CC.
    { split; [exact C1|]. intros [X1 X2]. apply C2; [|exact X1 | exact X2]. intro X. apply NZ. split; assumption. }
    assert (dmem "_zapped" (g_d g) = false) as DZ by (unfold dmem; rewrite D; reflexivity).
    assert (dmem "rs_client" (g_d g) = c) as DC by (unfold dmem; rewrite D; cbn; destruct c; reflexivity).
    assert (g_type gb = "ebgp" -> (dmem "rs" (g_d g) = true <-> serves gb)) as DR.
    { intro T. unfold dmem. rewrite D. cbn. assert (ibgp gb = false) as E by (apply not_true_is_false; intro X; apply ibgp_type in X; congruence).
      rewrite E. cbn [andb]. unfold serves, set_to. destruct (dget "rs" (g_d gb)) as [v|] eqn:GV.
      - split; [intros _; split; [exact T | exists v; split; [reflexivity | exact (TR v eq_refl)]] | reflexivity].
      - split; [discriminate | intros [_ [v [X _]]]; discriminate X]. }
    assert (dget "ifindex" (g_d g) = dget "ifindex" (g_d gb)) as DI by (apply (R_clean _ _ _ _ _ RR); discriminate).
    destruct (mesh_one_spec cs g) as [S1 S2]. destruct (existsb (cond g) cs) eqn:EX.
    - right. split; [|exact (S1 eq_refl)]. intros [_ S]. apply existsb_exists in EX. destruct EX as [x [IC CD]].
      unfold cs in IC. apply filter_In in IC. destruct IC as [IC XC]. apply andb_true_iff in XC. destruct XC as [XE XM].
      unfold cond in CD. rewrite !andb_true_iff, !negb_true_iff, opt_veqb_true in CD. destruct CD as [[[GE GI] GR] GC].
      destruct c; [congruence|]. pose proof (ebgp_R _ _ _ _ _ RR) as EE. rewrite EE in GE. apply ebgp_type in GE.
      destruct (Forall2_In_r _ _ _ _ F IC) as [xb [IXB [zx [cx [RX [ZX [CX _]]]]]]].
      pose proof RX as [_ DX]. pose proof (ebgp_R _ _ _ _ _ RX) as EX. rewrite EX in XE. apply ebgp_type in XE.
      assert (cx = true) as ->. { unfold dmem in XM. rewrite DX in XM. cbn in XM. destruct cx; [reflexivity | discriminate XM]. }
      destruct (IX GE) as [w W]. assert (zx = false) as ->.
      { destruct zx; [|reflexivity]. rewrite DX in GI. cbn in GI. rewrite DI, W in GI. discriminate GI. }
      destruct (CX eq_refl) as [_ RT].
      destruct (S GE) as [S3|[S3|S3]].
      + apply (DR GE) in S3. congruence.
      + assert (false = true) as X; [|discriminate X]. apply CC. split; [right; exact GE | exact S3].
      + apply (S3 xb IXB XE); [|exact RT|].
        * intro X. assert (false = true) as Y; [|discriminate Y]. apply ZX. split; assumption.
        * rewrite <- DI, GI. symmetry. apply (R_clean _ _ _ _ _ RX); discriminate.
    - left. split; [|split; [exact (Fin_kept y n0 gb g c G IB RR CC) | split; [exact (S2 eq_refl) | exact DZ]]].
      split; [exact NZ|]. intro T. destruct (serves_dec gb) as [S|S]; [left; exact S|]. right.
      destruct c; [left; apply CC; reflexivity|]. right. intros xb IXB XT XS XR XI.
      destruct (Forall2_In_l _ _ _ _ F IXB) as [x [IXL [zx [cx [RX [ZX [_ CX]]]]]]].
      assert (cx = true) as -> by (apply CX; [exact XS | right; exact XT | exact XR]).
      assert (zx = false) as -> by (destruct zx; [destruct XS; apply ZX; reflexivity | reflexivity]).
      apply not_true_iff_false in EX. apply EX. apply existsb_exists. exists x. split.
      + unfold cs. apply filter_In. split; [exact IXL|]. rewrite (ebgp_R _ _ _ _ _ RX). apply ebgp_type in XT. rewrite XT.
        unfold dmem. rewrite (proj2 RX). reflexivity.
      + unfold cond. rewrite (ebgp_R _ _ _ _ _ RR), DC. pose proof T as T2. apply ebgp_type in T2. rewrite T2.
        assert (dmem "rs" (g_d g) = false) as -> by (apply not_true_is_false; intro X; apply (DR T) in X; contradiction).
        rewrite !andb_true_iff. repeat split. apply opt_veqb_true. rewrite DI, <- XI. symmetry. apply (R_clean _ _ _ _ _ RX); discriminate. }
  clearbody cs.
  assert (forall bs ls, Forall2 (Fin y) bs ls -> incl bs (base y) -> incl ls l -> kept_list t0 y bs (remove_zapped (map (mesh_one cs) ls))) as GEN.
  { intros bs ls FF. induction FF as [|gb g bs ls H FF IH]; intros I1 I2; [constructor|].
    assert (kept_list t0 y bs (remove_zapped (map (mesh_one cs) ls))) as REST.
    { apply IH; intros u J; [apply I1 | apply I2]; right; exact J. }
    unfold remove_zapped. cbn [map filter]. destruct (ONE gb g (I1 gb (or_introl eq_refl)) (I2 g (or_introl eq_refl)) H) as [[A [B [C D]]]|[A B]].
    - rewrite C, D. cbn [negb]. apply kl_stay; assumption.
    - rewrite B. cbn [negb]. apply kl_drop; assumption. }
  apply GEN; [exact F | apply incl_refl | apply incl_refl].
Qed.
End State.

Lemma dget_map_nodes : forall (f : snode -> snode) y t,
  dget y (map (fun '(k, n) => (k, f n)) t) = option_map f (dget y t).
Proof.
  intros f y t. induction t as [|[k n] r IH]; [reflexivity|]. cbn [map dget]. destruct (String.eqb y k); [reflexivity | exact IH].
Qed.

(* Sessions between route servers and ordinary sessions on interfaces with a route server are
   removed, on both nodes of a session and in whatever order the nodes are processed; all other
   sessions stay, and those with a route server are marked. *)
Theorem route_server_sessions : forall t t' e,
  ready t -> session_transform attrs feat provider t = (t', e) ->
  forall y n, dget y t = Some n -> exists n', dget y t' = Some n' /\ kept_list t y (sessions_of t y) (s_ngb n').
Proof.
  intros t t' e RD H y n G. unfold session_transform in H.
  assert (Inv t t (stp []) (dnp [])) as I0.
  { split; [reflexivity|]. intros x n0 GX. exists n0. split; [exact GX|].
    refine (conj eq_refl (conj eq_refl (conj eq_refl (conj eq_refl _)))).
    intros k gb NB. destruct (Forall2_nth _ _ _ _ _ (base_kin t RD x n0 GX) NB) as [gi [NI [KI _]]]. exists gi. split; [exact NI|].
    exists gi, false, false. unfold stp, dnp. cbn [memS existsb]. rewrite andb_false_r.
    assert (forall u w, ~ rsd t (fun _ _ => false) u w) as NR by (intros u w [m [h [_ [_ [_ X]]]]]; discriminate X).
    refine (conj NI (conj _ (conj _ (conj _ _)))).
    - split; [reflexivity|]. intro k'. cbn [andb]. rewrite andb_false_r.
      destruct RD as [_ [_ [_ [_ Q]]]]. destruct (Q x n0 GX) as [_ Q2]. destruct (Q2 gi (nth_error_In _ _ NI)) as [_ [A [B _]]].
      destruct (String.eqb k' "_zapped") eqn:E1; [apply String.eqb_eq in E1; subst k'; exact B|].
      destruct (String.eqb k' "rs_client") eqn:E2; [apply String.eqb_eq in E2; subst k'; exact A | reflexivity].
    - split; [discriminate | intros [_ [_ X]]; discriminate X].
    - discriminate.
    - intros _ _ X. destruct (NR _ _ X). }
  pose proof RD as [ND _].
  destruct (node_steps_inv t RD (dkeys t) [] t (incl_refl _) ND (fun x _ F => F) I0) as [[q [QE QI]] HF].
  destruct (node_steps attrs feat provider (dkeys t) t) as [[t1 e1] h]. cbn [fst snd] in QI, HF. injection H as <- <-.
  assert (forall x, In x q <-> In x (dkeys t)) as QE2 by (intro x; rewrite QE; cbn [In]; tauto).
  destruct (Inv_Fin t RD t1 q y n QE2 QI G) as [n1 [G1 F]]. destruct h.
  - rewrite (dget_map_nodes (fun n => set_ngb n (remove_zapped (mesh_cleanup (s_ngb n))))), G1. cbn [option_map].
    eexists. split; [reflexivity|]. cbn [set_ngb s_ngb]. exact (mesh_kept t RD y n (s_ngb n1) G F).
  - exists n1. split; [exact G1|].
    assert (forall u w, ~ rs_to t u w) as NR.
    { intros u w [h [IH [S _]]]. assert (false = true) as X; [|discriminate X]. apply HF. exists u. split.
      - destruct (dget u t) as [nu|] eqn:GU; [exact (dget_Some_key _ _ GU)|]. unfold sessions_of in IH. rewrite GU in IH. destruct IH.
      - apply existsb_exists. exists h. split; [exact IH | apply rs_session_serves; exact S]. }
    assert (forall bs ls, Forall2 (Fin t y) bs ls -> incl bs (sessions_of t y) -> kept_list t y bs ls) as GEN.
    { intros bs ls FF. induction FF as [|gb g bs ls HG FF IH]; intro I1; [constructor|]. apply kl_stay.
      - split; [intros [_ X]; exact (NR _ _ X)|]. intros _. right. right. intros c _ _ _ X. destruct (NR _ _ X).
      - destruct HG as [z [c [RR [Z [C1 C2]]]]].
        assert (z = false) as -> by (destruct z; [destruct (proj1 Z eq_refl) as [_ X]; destruct (NR _ _ X) | reflexivity]).
        apply (Fin_kept t RD y n gb g c G (I1 gb (or_introl eq_refl)) RR). split; [exact C1 | intros [_ X]; destruct (NR _ _ X)].
      - apply IH. intros u J. apply I1. right. exact J. }
    apply GEN; [exact F | apply incl_refl].
Qed.
(* the effect of a route server on the node at the other end: the attribute rs_client, the template, the
   sessions to clear, and the errors for devices that cannot be clients of a route server *)
Theorem route_server_client_exact : forall rs remote b b' e,
  rs_remote feat provider rs remote b = (b', e) ->
  let client r := In r (s_ngb b) /\ session r /\ g_name r = rs /\ forall v, ~ set_to (g_d r) "rs" v in
  (s_rsc b' = true <-> s_rsc b = true \/ exists r, client r) /\
  (s_config b' = true <-> s_config b = true \/ exists r, client r) /\
  (forall x, In x (s_clear b') <-> In x (s_clear b) \/
     exists r, client r /\ (dget "ipv4" (g_d r) = Some x \/ dget "ipv6" (g_d r) = Some x)) /\
  (NoDup (s_clear b) -> NoDup (s_clear b')) /\
  (e = [] <-> ((exists r, client r) -> supported feat provider remote "rs_client")) /\
  (In (ERsClient remote rs) e <-> (exists r, client r) /\ ~ supported feat provider remote "rs_client") /\
  s_module b' = s_module b /\ s_bgp b' = s_bgp b /\ s_intf b' = s_intf b /\ s_secrets b' = s_secrets b.
Proof.
  intros rs remote b b' e H client. unfold rs_remote in H.
  set (cl := filter (fun r => back rs r && negb (vget "rs" (g_d r))) (s_ngb b)) in H.
  assert (forall r, In r cl <-> client r) as C.
  { intro r. unfold cl, client, back, vget, set_to. rewrite filter_In, !andb_true_iff, listed_session, String.eqb_eq, negb_true_iff.
    destruct (dget "rs" (g_d r)) as [v|]; split.
    - intros [I [[L N] T]]. split; [exact I|]. split; [exact L|]. split; [exact N|]. intros w [X Y]. injection X as ->. congruence.
    - intros [I [L [N T]]]. split; [exact I|]. split; [split; assumption|]. apply not_true_is_false. intro X. exact (T v (conj eq_refl X)).
    - intros [I [[L N] T]]. split; [exact I|]. split; [exact L|]. split; [exact N|]. intros w [X Y]. discriminate X.
    - intros [I [L [N T]]]. split; [exact I|]. split; [split; assumption|]. reflexivity. }
  clearbody cl. injection H as <- <-. cbn [s_rsc s_config s_clear s_module s_bgp s_intf s_secrets].
  assert ((match cl with [] => false | _ => true end) = true <-> exists r, client r) as U.
  { destruct cl as [|r l]; split.
    - discriminate.
    - intros [r X]. apply C in X. destruct X.
    - intros _. exists r. apply C. left. reflexivity.
    - reflexivity. }
  assert (forall l c x, In x (fold_left (fun c r => clear_sessions (g_d r) c) l c) <-> In x c \/
            exists r, In r l /\ (dget "ipv4" (g_d r) = Some x \/ dget "ipv6" (g_d r) = Some x)) as F.
  { intro l. induction l as [|r l IH]; intros c x; cbn [fold_left].
    - split; [auto | intros [X|[r [[] _]]]; exact X].
    - rewrite IH, clear_In. split.
      + intros [[X|X]|[q [I X]]]; [left; exact X | right; exists r; split; [left; reflexivity | exact X] | right; exists q; split; [right; exact I | exact X]].
      + intros [X|[q [[I|I] X]]]; [left; left; exact X | subst q; left; right; exact X | right; exists q; split; assumption]. }
  assert (forall n, check_support feat provider remote "rs_client" n = [] <-> supported feat provider remote "rs_client") as S
    by (intro n; apply check_support_nil).
  refine (conj _ (conj _ (conj _ (conj _ (conj _ (conj _ (conj eq_refl (conj eq_refl (conj eq_refl eq_refl))))))))).
  - rewrite orb_true_iff, U. reflexivity.
  - rewrite orb_true_iff, U. reflexivity.
  - intro x. rewrite F. split; (intros [X|[r [I X]]]; [left; exact X | right; exists r; split; [apply C; exact I | exact X]]).
  - clear. generalize (s_clear b). induction cl as [|r l IH]; intros c N; cbn [fold_left]; [exact N|]. apply IH, clear_NoDup, N.
  - split.
    + intros X [r R]. apply C in R. apply (S (g_name r)). destruct (check_support feat provider remote "rs_client" (g_name r)) eqn:E; [reflexivity|].
      exfalso. assert (In (ERsClient remote rs) []) as Y; [|destruct Y]. rewrite <- X. apply in_flat_map. exists r. split; [exact R|].
      rewrite E. right. apply in_app_iff. right. left. reflexivity.
    + intro X. destruct (flat_map _ cl) as [|y l] eqn:E; [reflexivity|]. exfalso.
      assert (In y (y :: l)) as Y by (left; reflexivity). rewrite <- E in Y. apply in_flat_map in Y. destruct Y as [r [R Y]].
      assert (supported feat provider remote "rs_client") as Z by (apply X; exists r; apply C; exact R).
      apply (S (g_name r)) in Z. rewrite Z in Y. destruct Y.
  - rewrite in_flat_map. split.
    + intros [r [R Y]]. split; [exists r; apply C; exact R|]. intro Z. apply (S (g_name r)) in Z. rewrite Z in Y. destruct Y.
    + intros [[r R] Z]. exists r. split; [apply C; exact R|].
      destruct (check_support feat provider remote "rs_client" (g_name r)) eqn:E; [exfalso; apply Z, (S (g_name r)), E|].
      right. apply in_app_iff. right. left. reflexivity.
Qed.

End RouteServer.

(* ---------- examples ---------- *)

(* a session over interface 1 *)
Definition lan (name ip : string) : ng := mk_ng None (ex_ngb name "ebgp" [("ifindex", VInt 1); ("ipv4", VStr ip)]).
Definition lan_node (bgp : dict val) (l : list ng) : snode := mk_sn ["bgp"] bgp [mk_si 1 None []] l false [] [] false.

(* tests/topology/input/bgp-rs-2as.yml: two routers and two route servers in different autonomous systems *)
Definition ex_lan : dict snode :=
  [("r1", lan_node [] [lan "r2" "10.0.0.2"; lan "rs1" "10.0.0.3"; lan "rs2" "10.0.0.4"]);
   ("r2", lan_node [] [lan "r1" "10.0.0.1"; lan "rs1" "10.0.0.3"; lan "rs2" "10.0.0.4"]);
   ("rs1", lan_node [("rs", VBool true)] [lan "r1" "10.0.0.1"; lan "r2" "10.0.0.2"; lan "rs2" "10.0.0.4"]);
   ("rs2", lan_node [("rs", VBool true)] [lan "r1" "10.0.0.1"; lan "r2" "10.0.0.2"; lan "rs1" "10.0.0.3"])].

Lemma lan_known : forall bgp l, dget "session" bgp = None -> known ex_attrs (lan_node bgp l).
Proof.
  intros bgp l S kind a H. inversion H as [N K I|d v E G V I|d m E G N I]; subst; try exact I.
  exfalso. revert E. cbn. rewrite S. discriminate.
Qed.

Ltac lan_ready := repeat match goal with
  | |- _ /\ _ => split
  | H : In _ _ |- _ => cbn in H; destruct H as [H|H]
  | H : _ \/ _ |- _ => destruct H as [H|H]
  | H : False |- _ => destruct H
  | H : _ = ?g |- _ => subst g
  end; try reflexivity; try discriminate; try (intros _; eexists; reflexivity).

Example ex_lan_ready : ready ex_attrs ex_lan.
Proof.
  split; [cbn; repeat constructor; cbn; intuition discriminate|]. split; [exact ex_plain|].
  split; [cbn; intuition discriminate|]. split; [cbn; intuition discriminate|].
  intros x n G. cbn [dget ex_lan] in G.
  repeat match type of G with (if String.eqb x ?s then _ else _) = _ =>
    destruct (String.eqb_spec x s) as [->|_]; [injection G as <-; split; [apply lan_known; reflexivity | intros g I; lan_ready]|] end.
  discriminate G.
Qed.

(* the names of the neighbors of a node, and whether they are route servers of the node *)
Definition peers (t : dict snode) (x : string) : list (string * bool) :=
  match dget x t with Some n => map (fun g => (g_name g, dmem "rs_client" (g_d g))) (s_ngb n) | None => [] end.

Example ex_lan_client :
  let (b, e) := rs_remote ex_feat "clab" "rs1" "r1" (lan_node [] [lan "r2" "10.0.0.2"; lan "rs1" "10.0.0.3"]) in
  s_rsc b = true /\ s_config b = true /\ s_clear b = [VStr "10.0.0.3"] /\ e = [].
Proof. vm_compute. repeat split; reflexivity. Qed.

Example ex_lan_sessions :
  let t := fst (session_transform ex_attrs ex_feat "clab" ex_lan) in
  peers t "r1" = [("rs1", true); ("rs2", true)] /\ peers t "r2" = [("rs1", true); ("rs2", true)] /\
  peers t "rs1" = [("r1", false); ("r2", false)] /\ peers t "rs2" = [("r1", false); ("r2", false)] /\
  snd (session_transform ex_attrs ex_feat "clab" ex_lan) = [].
Proof. vm_compute. repeat split; reflexivity. Qed.

(* The hypothesis about the attribute rs is needed: BGP attributes of an interface are copied into the
   sessions of the neighbors (modules/bgp.py:267-268), and an attribute rs copied from the interface of
   a route server makes its client a route server if the route server is the first of the two nodes.
   The session is then lost, and it is not lost if the nodes are in the other order. *)
Definition ex_rs : string * snode :=
  ("rs", mk_sn ["bgp"] [] [mk_si 1 None [("rs", VBool true)]] [lan "c" "10.0.0.2"] false [] [] false).
Definition ex_client : string * snode :=
  ("c", mk_sn ["bgp"] [] [mk_si 1 None []]
     [mk_ng None (ex_ngb "rs" "ebgp" [("rs", VBool true); ("ifindex", VInt 1); ("ipv4", VStr "10.0.0.1")])] false [] [] false).

Theorem route_server_order_refuted :
  let t1 := session_transform ex_attrs ex_feat "clab" [ex_rs; ex_client] in
  let t2 := session_transform ex_attrs ex_feat "clab" [ex_client; ex_rs] in
  snd t1 = [] /\ snd t2 = [] /\
  peers (fst t1) "rs" = [] /\ peers (fst t1) "c" = [] /\
  peers (fst t2) "rs" = [("c", false)] /\ peers (fst t2) "c" = [("rs", true)].
Proof. vm_compute. repeat split; reflexivity. Qed.

(* A session can be removed from one of its two nodes only: node r is in the autonomous system of the
   route server, and so it is not its client. *)
Definition ex_same_as : dict snode :=
  [("rs", lan_node [("rs", VBool true)] [mk_ng None (ex_ngb "r" "ibgp" [("ipv4", VStr "10.1.1.1")]); lan "c" "10.0.0.2"]);
   ("r", lan_node [] [mk_ng None (ex_ngb "rs" "ibgp" [("ipv4", VStr "10.1.1.2")]); lan "c" "10.0.0.2"]);
   ("c", lan_node [] [lan "rs" "10.0.0.1"; lan "r" "10.0.0.3"])].

Theorem route_server_one_sided_refuted :
  ready ex_attrs ex_same_as /\
  let t := session_transform ex_attrs ex_feat "clab" ex_same_as in
  snd t = [] /\ In ("c", false) (peers (fst t) "r") /\ ~ In "r" (map fst (peers (fst t) "c")).
Proof.
  split.
  - split; [cbn; repeat constructor; cbn; intuition discriminate|]. split; [exact ex_plain|].
    split; [cbn; intuition discriminate|]. split; [cbn; intuition discriminate|].
    intros x n G. cbn [dget ex_same_as] in G.
    repeat match type of G with (if String.eqb x ?s then _ else _) = _ =>
      destruct (String.eqb_spec x s) as [->|_]; [injection G as <-; split; [apply lan_known; reflexivity | intros g I; lan_ready]|] end.
    discriminate G.
  - vm_compute. split; [reflexivity|]. split; [right; left; reflexivity|]. intros [X|[]]. discriminate X.
Qed.

Print Assumptions route_server_sessions.
Print Assumptions route_server_order_refuted.
Print Assumptions route_server_one_sided_refuted.
Print Assumptions route_server_client_exact.
