(* Properties C15-C20: group recursion check, topological order, membership, and copying of
   group data into nodes. *)
From Coq Require Import String Ascii ZArith Lia Bool List Relations Permutation.
From Verif Require Import Base Graph Intf_Model Box_Model Box_Props Groups_Model.
Import ListNotations.
Open Scope nat_scope.

(* ---------- specification ---------- *)

(* m is listed as a member of group g *)
Definition member (t : topo) (g m : string) : Prop :=
  exists gd, dget g (t_groups t) = Some gd /\ In m (g_members gd).

(* group m is listed as a member of group g *)
Definition nested (t : topo) (g m : string) : Prop := member t g m /\ In m (dkeys (t_groups t)).

(* object n belongs to group g, directly or through nested groups of the same type *)
Inductive reaches (t : topo) (ty : string) : string -> string -> Prop :=
| reach_direct : forall g gd n,
    dget g (t_groups t) = Some gd -> g_type gd = ty -> In n (g_members gd) -> In n (t_objs t ty) ->
    reaches t ty g n
| reach_nested : forall g gd m n,
    dget g (t_groups t) = Some gd -> g_type gd = ty -> In m (g_members gd) -> In m (dkeys (t_groups t)) ->
    reaches t ty m n -> reaches t ty g n.

(* nesting of groups of one type *)
Definition nested_ty (t : topo) (ty g m : string) : Prop :=
  exists gd, dget g (t_groups t) = Some gd /\ g_type gd = ty /\ In m (g_members gd) /\
             In m (dkeys (t_groups t)).

Definition is_real (g : string) : Prop := underscore g = false.

(* group nesting between groups that are not settings *)
Definition nested_real (t : topo) (g m : string) : Prop := nested t g m /\ is_real g /\ is_real m.

(* every group comes after all the groups nested in it *)
Definition children_first (t : topo) (order : list string) : Prop :=
  forall a g b, order = a ++ g :: b -> forall m, member t g m -> ~ In m (g :: b).

(* all groups that are not settings, each once, children first *)
Definition group_order (t : topo) (order : list string) : Prop :=
  NoDup order /\ (forall g, In g order <-> In g (dkeys (t_groups t)) /\ is_real g) /\
  children_first t order.

(* ---------- concrete topology used in the examples ---------- *)

Local Open Scope string_scope.

Definition ex_topo : topo :=
  mk_topo
    [ ("all_routers", mk_gdata ["core"; "edge"; "rx"] "node" (Some "frr") (Some ["ospf"]) 
         (Some (VDict [("ospf", VDict [("area", VInt 0%Z); ("cost", VInt 5%Z)])])) (Some ["base"; "snmp"]));
      ("core", mk_gdata ["r1"; "r2"] "node" (Some "eos") (Some ["bgp"; "ospf"])
         (Some (VDict [("ospf", VDict [("cost", VInt 1%Z)]); ("role", VStr "core")])) (Some ["-snmp"; "mpls"]));
      ("edge", mk_gdata ["r3"] "node" None None None None) ]
    (fun ty => if String.eqb ty "node" then ["r1"; "r2"; "r3"; "rx"] else []).

Definition loop_topo : topo :=
  mk_topo
    [ ("a", mk_gdata ["x"; "b"] "node" None None None None);
      ("b", mk_gdata ["a"] "node" None None None None) ]
    (fun _ => ["x"]).

Local Close Scope string_scope.

(* ---------- C15: recursion check ---------- *)

Section Check.
  Variable t : topo.
  Let keys := dkeys (t_groups t).

  Definition chain_loop f chain' :=
    fix loop (ms : list string) : option bool :=
      match ms with
      | [] => Some false
      | m :: r =>
          if memS m chain' then Some true
          else if dmem m (t_groups t) then
            match check_chain t f chain' m with
            | Some true => Some true
            | None => None
            | Some false => loop r
            end
          else loop r
      end.

  Lemma check_chain_S : forall f c g gd, dget g (t_groups t) = Some gd ->
    check_chain t (S f) c g = chain_loop f (c ++ [g]) (g_members gd).
  Proof. intros f c g gd H. simpl. rewrite H. reflexivity. Qed.

  Lemma loop_true : forall f c ms, chain_loop f c ms = Some true ->
    exists m, In m ms /\ (In m c \/ In m keys /\ check_chain t f c m = Some true).
  Proof.
    induction ms as [|m r IH]; simpl; intros H; [discriminate|].
    destruct (memS m c) eqn:E1; [apply memS_true in E1; exists m; auto|].
    destruct (dmem m (t_groups t)) eqn:E2.
    - apply dmem_true in E2. destruct (check_chain t f c m) as [[|]|] eqn:E3; try discriminate.
      + exists m. auto.
      + destruct (IH H) as [m' [H1 H2]]. exists m'. auto.
    - destruct (IH H) as [m' [H1 H2]]. exists m'. auto.
  Qed.

  Lemma loop_false : forall f c ms, chain_loop f c ms = Some false ->
    forall m, In m ms -> ~ In m c /\ (In m keys -> check_chain t f c m = Some false).
  Proof.
    induction ms as [|m r IH]; simpl; intros H m' Hm; [contradiction|].
    destruct (memS m c) eqn:E1; [discriminate|]. apply memS_false in E1.
    destruct (dmem m (t_groups t)) eqn:E2.
    - destruct (check_chain t f c m) as [[|]|] eqn:E3; try discriminate.
      destruct Hm as [<-|Hm]; auto.
    - destruct Hm as [<-|Hm]; auto. split; auto. intros K. apply dmem_true in K. congruence.
  Qed.

  Lemma loop_none : forall f c ms, chain_loop f c ms = None ->
    exists m, In m ms /\ ~ In m c /\ In m keys /\ check_chain t f c m = None.
  Proof.
    induction ms as [|m r IH]; simpl; intros H; [discriminate|].
    destruct (memS m c) eqn:E1; [discriminate|]. apply memS_false in E1.
    destruct (dmem m (t_groups t)) eqn:E2.
    - apply dmem_true in E2. destruct (check_chain t f c m) as [[|]|] eqn:E3; try discriminate.
      + destruct (IH H) as [m' [H1 H2]]. exists m'. auto.
      + exists m. auto.
    - destruct (IH H) as [m' [H1 H2]]. exists m'. auto.
  Qed.

  Lemma check_true : forall f c g g0,
    (forall x, In x c -> clos_trans string (nested t) x g) ->
    (forall x, In x (c ++ [g]) -> clos_refl_trans string (nested t) g0 x) ->
    check_chain t f c g = Some true ->
    exists u, clos_refl_trans string (nested t) g0 u /\ clos_trans string (nested t) u u.
  Proof.
    induction f as [|f IH]; intros c g g0 I1 I2 H.
    - simpl in H. destruct (dget g (t_groups t)); discriminate.
    - destruct (dget g (t_groups t)) as [gd|] eqn:Eg; [|simpl in H; rewrite Eg in H; discriminate].
      rewrite (check_chain_S _ _ _ _ Eg) in H. apply loop_true in H.
      destruct H as [m [Hm [Hc|[Hk Hc]]]].
      + assert (Km : In m keys).
        { apply in_app_iff in Hc. destruct Hc as [Hc|[<-|[]]].
          - apply I1 in Hc. apply tc_first in Hc. destruct Hc as [z [[[gz [Hz _]] _] _]].
            eapply dget_Some_key; eauto.
          - eapply dget_Some_key; eauto. }
        assert (N : nested t g m) by (split; [exists gd; auto|auto]).
        exists m. split; [apply I2; auto|].
        apply in_app_iff in Hc. destruct Hc as [Hc|[<-|[]]].
        * eapply t_trans; [apply I1; eauto|apply t_step; auto].
        * apply t_step; auto.
      + assert (N : nested t g m) by (split; [exists gd; auto|auto]).
        apply (IH (c ++ [g]) m g0); auto.
        * intros x Hx. apply in_app_iff in Hx. destruct Hx as [Hx|[<-|[]]].
          -- eapply t_trans; [apply I1; auto|apply t_step; auto].
          -- apply t_step; auto.
        * intros x Hx. apply in_app_iff in Hx. destruct Hx as [Hx|[<-|[]]]; auto.
          eapply rt_trans; [apply I2; apply in_app_iff; right; left; reflexivity|apply rt_step; auto].
  Qed.

  Lemma check_false_step : forall f c g m, check_chain t f c g = Some false -> nested t g m ->
    ~ In m (c ++ [g]) /\ exists f', check_chain t f' (c ++ [g]) m = Some false.
  Proof.
    intros f c g m H [[gd [Eg Hm]] Km]. destruct f as [|f].
    - simpl in H. rewrite Eg in H. discriminate.
    - rewrite (check_chain_S _ _ _ _ Eg) in H.
      destruct (loop_false _ _ _ H m Hm) as [H1 H2]. split; auto. exists f. auto.
  Qed.

  Lemma check_false_tc : forall g v, clos_trans_1n string (nested t) g v ->
    forall f c, check_chain t f c g = Some false -> ~ In v (c ++ [g]).
  Proof.
    induction 1 as [g v N|g m v N T IH]; intros f c H.
    - eapply check_false_step; eauto.
    - destruct (check_false_step _ _ _ _ H N) as [_ [f' H']].
      specialize (IH _ _ H'). intros K. apply IH. apply in_app_iff. auto.
  Qed.

  Lemma check_false_rt : forall g v, clos_refl_trans_1n string (nested t) g v ->
    forall f c, check_chain t f c g = Some false ->
    exists f' c', check_chain t f' c' v = Some false.
  Proof.
    induction 1 as [g|g m v N T IH]; intros f c H; eauto.
    destruct (check_false_step _ _ _ _ H N) as [_ [f' H']]. eauto.
  Qed.

  Lemma check_total : forall f c g,
    NoDup (c ++ [g]) -> incl (c ++ [g]) keys -> length keys < f + length (c ++ [g]) ->
    check_chain t f c g <> None.
  Proof.
    induction f as [|f IH]; intros c g N I L H.
    - apply NoDup_incl_length in I; auto. lia.
    - destruct (dget g (t_groups t)) as [gd|] eqn:Eg; [|simpl in H; rewrite Eg in H; discriminate].
      rewrite (check_chain_S _ _ _ _ Eg) in H. apply loop_none in H.
      destruct H as [m [Hm [Nm [Km H]]]]. apply IH in H; auto.
      + apply NoDup_app_intro; auto.
        * constructor; [intros []|constructor].
        * intros x Hx [<-|[]]. contradiction.
      + intros x Hx. apply in_app_iff in Hx. destruct Hx as [Hx|[<-|[]]]; auto.
      + rewrite !app_length in *. simpl length in *. lia.
  Qed.

  Lemma check_list : forall names, incl names keys ->
    exists b, check_recursive_list t names = Some b /\
      (b = true <-> exists g u, In g names /\ is_real g /\
                    clos_refl_trans string (nested t) g u /\ clos_trans string (nested t) u u).
  Proof.
    induction names as [|g r IH]; intros I.
    - exists false. split; auto. split; [discriminate|]. intros [g [u [[] _]]].
    - destruct IH as [b [Hb Sb]]; [intros x Hx; apply I; right; auto|].
      cbn [check_recursive_list]. destruct (underscore g) eqn:U.
      + exists b. split; auto. rewrite Sb. split; intros [g' [u [H1 [H2 H3]]]]; exists g', u; split; auto.
        * right; auto.
        * destruct H1 as [<-|H1]; auto. unfold is_real in H2. congruence.
      + assert (T : check_chain t (S (length (t_groups t))) [] g <> None).
        { apply check_total.
          - constructor; [intros []|constructor].
          - intros x [<-|[]]. apply I. left; auto.
          - unfold keys, dkeys. rewrite map_length. simpl. lia. }
        destruct (check_chain t (S (length (t_groups t))) [] g) as [[|]|] eqn:C; [| |congruence].
        * exists true. split; auto. split; auto. intros _.
          destruct (check_true (S (length (t_groups t))) [] g g) as [u [H1 H2]]; auto.
          -- intros x [].
          -- intros x [<-|[]]. apply rt_refl.
          -- exists g, u. split; [left; auto|]. repeat split; auto.
        * exists b. split; auto. rewrite Sb. split; intros [g' [u [H1 [H2 [H3 H4]]]]].
          -- exists g', u. split; [right; auto|]. auto.
          -- destruct H1 as [<-|H1]; [|exists g', u; auto].
             exfalso. apply clos_rt_rt1n in H3.
             destruct (check_false_rt _ _ H3 _ _ C) as [f' [c' H']].
             apply clos_trans_t1n in H4. apply (check_false_tc _ _ H4 _ _ H').
             apply in_app_iff. right; left; auto.
  Qed.
End Check.

(* C15: the recursion check always ends, and reports an error exactly when some group that is
   not a setting contains, through any number of nesting steps, a group that contains itself. *)
Theorem recursive_groups_detected : forall t,
  exists b, check_recursive_groups t = Some b /\
    (b = true <-> exists g u, In g (dkeys (t_groups t)) /\ is_real g /\
                  clos_refl_trans string (nested t) g u /\ clos_trans string (nested t) u u).
Proof. intros t. apply check_list. apply incl_refl. Qed.

Example recursive_groups_case :
  check_recursive_groups loop_topo = Some true /\ check_recursive_groups ex_topo = Some false.
Proof. split; reflexivity. Qed.

(* ---------- C16: topological order ---------- *)

Section Sweep.
  Lemma dget_dpop : forall A k k' (d : dict A),
    dget k (dpop k' d) = if String.eqb k k' then None else dget k d.
  Proof.
    intros A k k' d. destruct (String.eqb_spec k k') as [E|E].
    - rewrite E. apply dget_dpop_same.
    - apply dget_dpop_other. auto.
  Qed.

  Lemma dkeys_dpop : forall A k (d : dict A),
    dkeys (dpop k d) = filter (fun x => negb (String.eqb k x)) (dkeys d).
  Proof.
    induction d as [|[k' v] d IH]; simpl; auto. destruct (String.eqb k k'); simpl; rewrite IH; auto.
  Qed.

  Lemma perm_remove : forall k l, NoDup l -> In k l ->
    Permutation l (k :: filter (fun x => negb (String.eqb k x)) l).
  Proof.
    induction l as [|x l IH]; intros N I; [contradiction|]. inversion N as [|? ? N1 N2]; subst.
    simpl. destruct (String.eqb_spec k x) as [E|E]; simpl.
    - rewrite E in *. constructor. rewrite <- (filter_ext_in (fun _ => true)).
      + clear. induction l; simpl; auto.
      + intros a Ha. destruct (String.eqb_spec x a); auto. congruence.
    - destruct I as [I|I]; [congruence|]. rewrite perm_swap. constructor. auto.
  Qed.

  Lemma sweep_spec : forall keys rem s rem', NoDup keys -> NoDup (dkeys rem) -> incl keys (dkeys rem) ->
    sweep keys rem = (s, rem') ->
    NoDup (dkeys rem') /\
    Permutation (dkeys rem) (s ++ dkeys rem') /\
    (forall k gd, dget k rem' = Some gd -> dget k rem = Some gd) /\
    (forall a g b, s = a ++ g :: b -> exists gd, dget g rem = Some gd /\
        forall m, In m (g_members gd) -> ~ In m (g :: b) /\ ~ In m (dkeys rem')) /\
    (s = [] -> rem' = rem /\ forall k, In k keys -> exists gd m, dget k rem = Some gd /\
        In m (g_members gd) /\ In m (dkeys rem)).
  Proof.
    induction keys as [|g r IH]; intros rem s rem' Nk Nr I H.
    - simpl in H. inversion H; subst. repeat split; auto.
      + intros a g b E. destruct a; discriminate.
      + intros k [].
    - inversion Nk as [|? ? N1 N2]; subst. simpl in H.
      assert (Kg : In g (dkeys rem)) by (apply I; left; auto).
      destruct (dget g rem) as [gd|] eqn:Eg; [|apply dget_None in Eg; contradiction].
      destruct (existsb (fun m => dmem m rem) (g_members gd)) eqn:Ex.
      + destruct (IH rem s rem') as [A [B [C [D E]]]]; auto; [intros x Hx; apply I; right; auto|].
        split; [exact A|]. split; [exact B|]. split; [exact C|]. split; [exact D|]. intros Es. destruct (E Es) as [E1 E2]. split; auto.
        intros k [<-|Hk]; [|auto].
        apply existsb_exists in Ex. destruct Ex as [m [M1 M2]]. apply dmem_true in M2. eauto.
      + destruct (sweep r (dpop g rem)) as [s' rem''] eqn:Sw. inversion H; subst; clear H.
        assert (Np : NoDup (dkeys (dpop g rem))) by (rewrite dkeys_dpop; apply NoDup_filter_str; auto).
        destruct (IH (dpop g rem) s' rem') as [A [B [C [D E]]]]; auto.
        { intros x Hx. rewrite dkeys_dpop. apply filter_In. split; [apply I; right; auto|].
          destruct (String.eqb_spec g x); auto. subst. contradiction. }
        assert (Ng : forall m, In m (g_members gd) -> ~ In m (dkeys rem)).
        { intros m Hm K. apply dmem_true in K.
          assert (existsb (fun m => dmem m rem) (g_members gd) = true) by (apply existsb_exists; eauto).
          congruence. }
        assert (Pm : Permutation (dkeys rem) (g :: s' ++ dkeys rem')).
        { rewrite (perm_remove g (dkeys rem)); auto. constructor. rewrite <- dkeys_dpop. auto. }
        repeat split; auto.
        * intros k gd' K. apply C in K. rewrite dget_dpop in K. destruct (String.eqb k g); [discriminate|auto].
        * intros a g' b Ea. destruct a as [|x a]; inversion Ea; subst.
          -- exists gd. split; auto. intros m Hm. specialize (Ng m Hm).
             split; intros K; apply Ng; eapply Permutation_in; try (symmetry; exact Pm).
             ++ simpl. destruct K; auto. right. apply in_app_iff; auto.
             ++ right. apply in_app_iff; auto.
          -- destruct (D a g' b eq_refl) as [gd' [D1 D2]]. exists gd'. split; auto.
             rewrite dget_dpop in D1. destruct (String.eqb g' x); [discriminate|auto].
        * discriminate.
        * discriminate.
  Qed.

  Lemma topsort_loop_spec : forall fuel rem, NoDup (dkeys rem) -> length rem <= fuel ->
    match topsort_loop fuel rem with
    | Some l => Permutation (dkeys rem) l /\
        forall a g b, l = a ++ g :: b -> exists gd, dget g rem = Some gd /\
          forall m, In m (g_members gd) -> ~ In m (g :: b)
    | None => exists u, clos_trans string (fun g m => (exists gd, dget g rem = Some gd /\ In m (g_members gd))
                 /\ In m (dkeys rem)) u u
    end.
  Proof.
    induction fuel as [|fuel IH]; intros rem N L.
    - destruct rem; [|simpl in L; lia]. simpl. split; auto. intros a g b E. destruct a; discriminate.
    - destruct rem as [|e rem0] eqn:Er.
      { simpl. split; auto. intros a g b E. destruct a; discriminate. }
      rewrite <- Er in *.
      replace (topsort_loop (S fuel) rem) with
        (let (s, rem') := sweep (sortS (dkeys rem)) rem in
         match topsort_loop fuel rem' with Some l => Some (s ++ l) | None => None end)
        by (rewrite Er; reflexivity).
      destruct (sweep (sortS (dkeys rem)) rem) as [s rem'] eqn:Sw.
      pose proof (sortS_perm (dkeys rem)) as Ps.
      destruct (sweep_spec _ _ _ _ (Permutation_NoDup Ps N) N
                  (fun x H => Permutation_in x (Permutation_sym Ps) H) Sw) as [A [B [C [D E]]]].
      destruct s as [|s0 s1].
      + destruct (E eq_refl) as [-> E2].
        assert (Cy : exists u, clos_trans string (fun g m => (exists gd, dget g rem = Some gd /\ In m (g_members gd))
                 /\ In m (dkeys rem)) u u).
        { destruct (no_sink_cycle (fun g m => (exists gd, dget g rem = Some gd /\ In m (g_members gd))) (dkeys rem)) as [u [_ Hu]].
          - rewrite Er. discriminate.
          - intros x Hx. destruct (E2 x) as [gd [m [H1 [H2 H3]]]]; [eapply Permutation_in; eauto|].
            exists m. eauto.
          - exists u. eapply tc_incl; [|exact Hu]. simpl. tauto. }
        destruct (topsort_loop fuel rem) as [l|] eqn:TL; auto.
        (* a stuck sweep cannot be followed by success *)
        exfalso. clear -TL Sw Er. assert (Ne : rem <> []) by (rewrite Er; discriminate). clear Er.
        revert l TL. induction fuel as [|f IHf]; intros l TL.
        * destruct rem; [congruence|discriminate].
        * simpl in TL. destruct rem; [congruence|]. rewrite Sw in TL.
          destruct (topsort_loop f (p :: rem)) eqn:T2; [|discriminate]. eapply IHf; eauto.
      + assert (L' : length rem' <= fuel).
        { apply Permutation_length in B. unfold dkeys in B. rewrite app_length, !map_length in B. simpl in B. lia. }
        specialize (IH rem' A L'). destruct (topsort_loop fuel rem') as [l|].
        * destruct IH as [P1 P2]. split.
          -- rewrite B. apply Permutation_app_head. auto.
          -- intros a g b El. apply app_eq_app in El. destruct El as [l' [[H1 H2]|[H1 H2]]].
             ++ destruct l' as [|x l'].
                ** rewrite app_nil_r in H1. simpl in H2. destruct (P2 [] g b) as [gd [G1 G2]]; auto. exists gd. split; auto.
                ** simpl in H2. inversion H2; subst x b. destruct (D a g l' H1) as [gd [G1 G2]].
                   exists gd. split; auto. intros m Hm K. destruct (G2 m Hm) as [K1 K2].
                   destruct K as [K|K]; [apply K1; left; auto|]. apply in_app_iff in K.
                   destruct K as [K|K]; [apply K1; right; auto|]. apply K2.
                   eapply Permutation_in; [symmetry; exact P1|auto].
             ++ destruct (P2 l' g b H2) as [gd [G1 G2]]. exists gd. split; auto.
        * destruct IH as [u Hu]. exists u. eapply tc_incl; [|exact Hu].
          intros g m [[gd [H1 H2]] H3]. split; [exists gd; auto|].
          eapply Permutation_in; [symmetry; exact B|]. apply in_app_iff. auto.
  Qed.
End Sweep.

Lemma dget_filter : forall A (f : string -> bool) k (d : dict A),
  dget k (filter (fun e => f (fst e)) d) = if f k then dget k d else None.
Proof.
  induction d as [|[k' v] d IH]; simpl.
  - destruct (f k); auto.
  - destruct (f k') eqn:F; simpl.
    + destruct (String.eqb_spec k k') as [E|E]; [rewrite E, F; auto|auto].
    + rewrite IH. destruct (String.eqb_spec k k') as [E|E]; [rewrite E, F; auto|auto].
Qed.

Lemma dkeys_filter : forall A (f : string -> bool) (d : dict A),
  dkeys (filter (fun e => f (fst e)) d) = filter f (dkeys d).
Proof.
  induction d as [|[k' v] d IH]; simpl; auto. destruct (f k'); simpl; rewrite IH; auto.
Qed.

Lemma real_groups_keys : forall t g, In g (dkeys (real_groups t)) <-> In g (dkeys (t_groups t)) /\ is_real g.
Proof.
  intros t g. unfold real_groups. rewrite (dkeys_filter _ (fun x => negb (underscore x))), filter_In.
  unfold is_real. destruct (underscore g); simpl; intuition congruence.
Qed.

Lemma real_groups_get : forall t g gd, dget g (real_groups t) = Some gd ->
  dget g (t_groups t) = Some gd /\ is_real g.
Proof.
  intros t g gd H. unfold real_groups in H. rewrite (dget_filter _ (fun x => negb (underscore x))) in H.
  unfold is_real. destruct (underscore g); simpl in H; [discriminate|auto].
Qed.

Lemma children_first_acyclic : forall t order, group_order t order ->
  forall u, ~ clos_trans string (nested_real t) u u.
Proof.
  intros t order [N [K C]] u H.
  assert (G : forall x y, clos_trans_1n string (nested_real t) x y ->
              forall a b, order = a ++ x :: b -> ~ In y (x :: b)).
  { induction 1 as [x y [[M _] _]|x z y [[M Mz] [_ Rz]] T IH]; intros a b E.
    - eapply C; eauto.
    - pose proof (C a x b E z M) as Nz.
      assert (Iz : In z order) by (apply K; auto).
      rewrite E in Iz. apply in_app_iff in Iz. destruct Iz as [Iz|Iz]; [|contradiction].
      apply in_split in Iz. destruct Iz as [a1 [a2 ->]].
      specialize (IH a1 (a2 ++ x :: b)). intros K2. apply IH.
      + rewrite E, <- app_assoc. reflexivity.
      + right. apply in_app_iff. auto. }
  assert (Iu : In u order).
  { apply tc_first in H. destruct H as [z [[[[gd [H1 _]] _] [H2 _]] _]]. apply K. split; auto.
    eapply dget_Some_key; eauto. }
  apply in_split in Iu. destruct Iu as [a [b E]]. apply clos_trans_t1n in H.
  apply (G _ _ H a b E). left; auto.
Qed.

(* C16: sorting the groups ends with all of them, children first, exactly when no group
   contains itself; otherwise the loop of the code makes no progress. *)
Theorem reverse_topsort_sound : forall t order, NoDup (dkeys (t_groups t)) ->
  reverse_topsort t = Some order -> group_order t order.
Proof.
  intros t order N H. unfold reverse_topsort in H.
  assert (Nr : NoDup (dkeys (real_groups t))).
  { unfold real_groups. rewrite (dkeys_filter _ (fun x => negb (underscore x))). apply NoDup_filter_str. auto. }
  pose proof (topsort_loop_spec _ (real_groups t) Nr (le_n _)) as S. rewrite H in S.
  destruct S as [P O]. split; [eapply Permutation_NoDup; eauto|]. split.
  - intros g. rewrite <- real_groups_keys. split; intros K; [apply (Permutation_in g (Permutation_sym P) K)|apply (Permutation_in g P K)].
  - intros a g b E m [gd [G1 G2]]. destruct (O a g b E) as [gd' [H1 H2]].
    apply real_groups_get in H1. apply H2. destruct H1. congruence.
Qed.

Theorem reverse_topsort_ends_iff_acyclic : forall t, NoDup (dkeys (t_groups t)) ->
  ((exists order, reverse_topsort t = Some order) <-> (forall u, ~ clos_trans string (nested_real t) u u)).
Proof.
  intros t N. split.
  - intros [order H]. eapply children_first_acyclic. eapply reverse_topsort_sound; eauto.
  - intros Ac. unfold reverse_topsort.
    assert (Nr : NoDup (dkeys (real_groups t))).
    { unfold real_groups. rewrite (dkeys_filter _ (fun x => negb (underscore x))). apply NoDup_filter_str. auto. }
    pose proof (topsort_loop_spec _ (real_groups t) Nr (le_n _)) as S.
    destruct (topsort_loop (length (real_groups t)) (real_groups t)) as [l|]; eauto.
    destruct S as [u Hu]. exfalso. apply (Ac u). eapply tc_incl; [|exact Hu].
    intros a b [[gd [H1 H2]] H3]. apply real_groups_get in H1. destruct H1 as [H1 R1].
    apply real_groups_keys in H3. destruct H3. repeat split; auto. exists gd; auto.
Qed.

Example reverse_topsort_case :
  reverse_topsort ex_topo = Some ["core"; "edge"; "all_routers"]%string /\
  reverse_topsort loop_topo = None.
Proof. split; reflexivity. Qed.

(* The recursion check run before sorting guarantees the sort ends. *)
Theorem checked_groups_sortable : forall t, NoDup (dkeys (t_groups t)) ->
  check_recursive_groups t = Some false -> exists order, reverse_topsort t = Some order.
Proof.
  intros t N H. apply reverse_topsort_ends_iff_acyclic; auto. intros u Hu.
  destruct (recursive_groups_detected t) as [b [Hb Sb]].
  assert (b = true); [|congruence]. apply Sb.
  destruct (tc_first _ _ _ _ Hu) as [z [[[[gd [H1 _]] _] [R _]] _]].
  exists u, u. split; [eapply dget_Some_key; eauto|]. split; auto. split; [apply rt_refl|].
  eapply tc_incl; [|exact Hu]. intros a c [K _]. exact K.
Qed.

(* ---------- C17: membership ---------- *)

Lemma collect_Err : forall A (f : string -> result group_error (list A)) l e,
  collect f l = Err e -> exists m, In m l /\ exists e', f m = Err e'.
Proof.
  induction l as [|m r IH]; simpl; intros e H; [discriminate|].
  destruct (f m) as [x|e'] eqn:F; [|exists m; eauto].
  destruct (collect f r) as [y|e'] eqn:C; [discriminate|].
  destruct (IH e' eq_refl) as [m' [H1 H2]]. exists m'. auto.
Qed.

Lemma collect_has_Err : forall A (f : string -> result group_error (list A)) l m e,
  In m l -> f m = Err e -> exists e', collect f l = Err e'.
Proof.
  induction l as [|x r IH]; simpl; intros m e H F; [contradiction|]. destruct H as [<-|H].
  - rewrite F. eauto.
  - destruct (f x); eauto. destruct (IH m e H F) as [e' ->]. eauto.
Qed.

Lemma collect_Ok : forall A (f : string -> result group_error (list A)) l out,
  collect f l = Ok out ->
  forall x, In x out <-> exists m r, In m l /\ f m = Ok r /\ In x r.
Proof.
  induction l as [|m r IH]; simpl; intros out H x.
  - inversion H; subst. split; [intros []|]. intros [m [r [[] _]]].
  - destruct (f m) as [y|] eqn:F; [|discriminate]. destruct (collect f r) as [z|] eqn:C; [|discriminate].
    injection H as <-. rewrite in_app_iff, (IH z eq_refl). split.
    + intros [K|[m' [r' [K1 K2]]]]; [exists m, y; auto|exists m', r'; auto].
    + intros [m' [r' [[<-|K1] [K2 K3]]]].
      * left. congruence.
      * right. exists m', r'. auto.
Qed.

Definition step_members t ty f m : result group_error (list string) :=
  let direct := if memS m (t_objs t ty) then [m] else [] in
  if dmem m (t_groups t) then
    match members_rec t ty f m with Ok l => Ok (direct ++ l) | Err e => Err e end
  else Ok direct.

Lemma members_S : forall t ty f g gd, dget g (t_groups t) = Some gd ->
  members_rec t ty (S f) g =
  if negb (String.eqb (g_type gd) ty) then Ok [] else collect (step_members t ty f) (g_members gd).
Proof. intros. simpl. rewrite H. reflexivity. Qed.

Lemma members_exact : forall t ty f g l, members_rec t ty f g = Ok l ->
  forall n, In n l <-> reaches t ty g n.
Proof.
  induction f as [|f IH]; intros g l H n.
  - simpl in H. destruct (dget g (t_groups t)) eqn:Eg; [discriminate|]. injection H as <-.
    split; [intros []|]. intros R. inversion R; congruence.
  - destruct (dget g (t_groups t)) as [gd|] eqn:Eg.
    + rewrite (members_S _ _ _ _ _ Eg) in H. destruct (String.eqb_spec (g_type gd) ty) as [E|E]; simpl in H.
      * rewrite (collect_Ok _ _ _ _ H). unfold step_members. split.
        -- intros [m [r [Hm [Hs Hn]]]].
           destruct (dmem m (t_groups t)) eqn:D.
           ++ destruct (members_rec t ty f m) as [lm|] eqn:M; [|discriminate]. injection Hs as <-.
              apply in_app_iff in Hn. destruct Hn as [Hn|Hn].
              ** destruct (memS m (t_objs t ty)) eqn:O; [|contradiction]. destruct Hn as [<-|[]].
                 apply memS_true in O. eapply reach_direct; eauto.
              ** apply dmem_true in D. eapply reach_nested; eauto. eapply IH; eauto.
           ++ injection Hs as <-. destruct (memS m (t_objs t ty)) eqn:O; [|contradiction].
              destruct Hn as [<-|[]]. apply memS_true in O. eapply reach_direct; eauto.
        -- intros R. inversion R as [g' gd' n' H1 H2 H3 H4|g' gd' m n' H1 H2 H3 H4 H5]; subst g' n'.
           ++ assert (gd' = gd) by congruence. subst gd'. exists n.
              destruct (step_members t ty f n) as [r|e] eqn:Sm.
              ** exists r. pose proof Sm as Sm0. unfold step_members in Sm. apply memS_true in H4. rewrite H4 in Sm.
                 split; [exact H3|]. split; [exact Sm0|]. destruct (dmem n (t_groups t)).
                 --- destruct (members_rec t ty f n); [|discriminate]. injection Sm as <-. simpl; auto.
                 --- injection Sm as <-. simpl; auto.
              ** destruct (collect_has_Err _ _ _ _ _ H3 Sm) as [e' Ce]. congruence.
           ++ assert (gd' = gd) by congruence. subst gd'. exists m.
              destruct (step_members t ty f m) as [r|e] eqn:Sm.
              ** exists r. pose proof Sm as Sm0. unfold step_members in Sm. apply dmem_true in H4. rewrite H4 in Sm.
                 split; [exact H3|]. split; [exact Sm0|]. destruct (members_rec t ty f m) as [lm|] eqn:M; [|discriminate].
                 injection Sm as <-. apply in_app_iff. right. eapply IH; eauto.
              ** destruct (collect_has_Err _ _ _ _ _ H3 Sm) as [e' Ce]. congruence.
      * injection H as <-. split; [intros []|]. intros R. inversion R; congruence.
    + simpl in H. rewrite Eg in H. injection H as <-.
      split; [intros []|]. intros R. inversion R; congruence.
Qed.

Lemma members_Err : forall t ty f g,
  (exists e, members_rec t ty f g = Err e) <->
  In g (dkeys (t_groups t)) /\ exists l, length l = f /\ chain (nested_ty t ty) (g :: l).
Proof.
  induction f as [|f IH]; intros g.
  - simpl. destruct (dget g (t_groups t)) as [gd|] eqn:Eg.
    + split; [intros _|eauto]. split; [eapply dget_Some_key; eauto|]. exists []. simpl. auto.
    + split; [intros [e H]; discriminate|]. intros [K _]. apply dget_None in Eg. contradiction.
  - destruct (dget g (t_groups t)) as [gd|] eqn:Eg.
    + rewrite (members_S _ _ _ _ _ Eg). destruct (String.eqb_spec (g_type gd) ty) as [E|E]; simpl negb; cbv iota.
      * split.
        -- intros [e H]. apply collect_Err in H. destruct H as [m [Hm [e' He]]].
           unfold step_members in He. destruct (dmem m (t_groups t)) eqn:D; [|discriminate].
           destruct (members_rec t ty f m) eqn:M; [discriminate|].
           destruct (proj1 (IH m)) as [K [l [L C]]]; eauto.
           split; [eapply dget_Some_key; eauto|]. exists (m :: l). split; [simpl; auto|].
           rewrite chain_cons. split; auto. exists gd. auto.
        -- intros [_ [[|m l] [L C]]]; [discriminate|]. rewrite chain_cons in C. destruct C as [[gd' [C1 [C2 [C3 C4]]]] C5].
           assert (gd' = gd) by congruence. subst gd'.
           destruct (proj2 (IH m)) as [e He]; [split; auto; exists l; auto|].
           eapply collect_has_Err; [exact C3|]. unfold step_members. apply dmem_true in C4. rewrite C4, He. reflexivity.
      * split; [intros [e H]; discriminate|]. intros [_ [[|m l] [L C]]]; [discriminate|].
        rewrite chain_cons in C. destruct C as [[gd' [C1 [C2 _]]] _]. congruence.
    + simpl. rewrite Eg. split; [intros [e H]; discriminate|].
      intros [K _]. apply dget_None in Eg. contradiction.
Qed.

(* C17: the list of members holds exactly the objects reachable from the group through nested
   groups of the same type. *)
Theorem group_members_exact : forall t ty g l, group_members t ty g = Ok l ->
  forall n, In n l <-> reaches t ty g n.
Proof. intros t ty g l H. unfold group_members in H. eapply members_exact. exact H. Qed.

(* It fails exactly when groups of that type are nested more than 100 deep. *)
Theorem group_members_fails_iff : forall t ty g,
  (exists e, group_members t ty g = Err e) <->
  In g (dkeys (t_groups t)) /\ exists l, length l = 100 /\ chain (nested_ty t ty) (g :: l).
Proof. intros t ty g. unfold group_members. rewrite members_Err. reflexivity. Qed.

Lemma chain_incl_keys : forall t ty g l, In g (dkeys (t_groups t)) -> chain (nested_ty t ty) (g :: l) ->
  incl (g :: l) (dkeys (t_groups t)).
Proof.
  intros t ty g l. revert g. induction l as [|m l IH]; intros g K C x [<-|Hx]; auto; [contradiction|].
  rewrite chain_cons in C. destruct C as [[gd [_ [_ [_ Km]]]] C]. eapply IH; eauto.
Qed.

(* With at most 100 groups and no group containing itself, membership is always computed. *)
Theorem group_members_succeeds : forall t ty g,
  length (t_groups t) <= 100 -> (forall u, ~ clos_trans string (nested t) u u) ->
  exists l, group_members t ty g = Ok l.
Proof.
  intros t ty g L Ac. destruct (group_members t ty g) as [l|e] eqn:G; eauto. exfalso.
  destruct (proj1 (group_members_fails_iff t ty g)) as [K [l [Ll C]]]; eauto.
  destruct (long_chain_cycle (nested_ty t ty) (g :: l) (dkeys (t_groups t)) (chain_incl_keys _ _ _ _ K C)) as [u [_ Hu]]; auto.
  - unfold dkeys. rewrite map_length. simpl length. lia.
  - apply (Ac u). eapply tc_incl; [|exact Hu]. intros a b [gd [H1 [H2 [H3 H4]]]]. split; auto. exists gd; auto.
Qed.

Example group_members_case :
  group_members ex_topo "node" "all_routers" = Ok ["r1"; "r2"; "r3"; "rx"]%string /\
  group_members ex_topo "vlan" "all_routers" = Ok [] /\
  group_members loop_topo "node" "a" = Err RecursiveGroup.
Proof. repeat split; reflexivity. Qed.

(* Deep but acyclic nesting is rejected as recursive. *)
Definition deep_group (n : nat) : string * gdata :=
  (append "g" (dec n),
   mk_gdata (if Nat.eqb n 0 then ["x"%string] else [append "g" (dec (n - 1))]) "node" None None None None).
Definition deep_topo : topo := mk_topo (map deep_group (seq 0 101)) (fun _ => ["x"%string]).

Theorem group_members_deep_refuted :
  (forall u, ~ clos_trans string (nested_real deep_topo) u u) /\
  check_recursive_groups deep_topo = Some false /\
  reaches deep_topo "node" "g0" "x" /\
  group_members deep_topo "node" "g100" = Err RecursiveGroup.
Proof.
  split; [|split; [vm_compute; reflexivity|split; [|vm_compute; reflexivity]]].
  - apply reverse_topsort_ends_iff_acyclic.
    + assert (E : NoDup (nodup string_dec (dkeys (t_groups deep_topo)))) by apply NoDup_nodup.
      replace (nodup string_dec (dkeys (t_groups deep_topo))) with (dkeys (t_groups deep_topo)) in E
        by (vm_compute; reflexivity). exact E.
    + destruct (reverse_topsort deep_topo) as [o|] eqn:R; [exists o; auto|].
      exfalso. vm_compute in R. discriminate R.
  - eapply reach_direct; [vm_compute; reflexivity|reflexivity|left; reflexivity|left; reflexivity].
Qed.

(* ---------- copying group data into nodes: shared lemmas ---------- *)

Lemma dget_update : forall A (f : A -> A) nodes name n,
  dget n (update f nodes name) =
  if String.eqb n name then option_map f (dget n nodes) else dget n nodes.
Proof.
  intros A f nodes name n. unfold update. destruct (String.eqb_spec n name) as [E|E].
  - rewrite E. destruct (dget name nodes) eqn:D; simpl; auto. apply dget_dset_same.
  - destruct (dget name nodes); auto. apply dget_dset_other. auto.
Qed.

Lemma dkeys_update : forall A (f : A -> A) nodes name, dkeys (update f nodes name) = dkeys nodes.
Proof.
  intros. unfold update. destruct (dget name nodes) eqn:D; auto. apply dkeys_dset_mem.
  eapply dget_Some_key; eauto.
Qed.

Lemma dkeys_fold_update : forall A (f : A -> A) ms nodes,
  dkeys (fold_left (update f) ms nodes) = dkeys nodes.
Proof.
  induction ms as [|m r IH]; intros nodes; simpl; auto. rewrite IH. apply dkeys_update.
Qed.

(* when f is idempotent on the value of the node, repeated members do not matter *)
Lemma dget_fold_update : forall A (f : A -> A) n x ms nodes, f (f x) = f x ->
  (dget n nodes = Some x -> dget n (fold_left (update f) ms nodes) = Some (if memS n ms then f x else x)) /\
  (dget n nodes = Some (f x) -> dget n (fold_left (update f) ms nodes) = Some (f x)).
Proof.
  intros A f n x ms. induction ms as [|m r IH]; intros nodes I; simpl; [auto|].
  change (existsb (String.eqb n) r) with (memS n r).
  destruct (IH (update f nodes m) I) as [I1 I2]. rewrite dget_update in I1, I2. split; intros H; rewrite H in I1, I2.
  - destruct (String.eqb n m); simpl in *; auto.
  - apply I2. destruct (String.eqb n m); simpl; auto. congruence.
Qed.

(* n is a member of group g *)
Definition in_group (t : topo) (g n : string) : Prop := reaches t "node" g n.

(* ---------- C19: device and modules ---------- *)

Definition group_device (t : topo) (g : string) : option string :=
  match dget g (t_groups t) with Some gd => g_device gd | None => None end.
Definition group_modules (t : topo) (g : string) : list string :=
  match dget g (t_groups t) with
  | Some gd => match g_module gd with Some l => l | None => [] end
  | None => []
  end.
Definition node_modules (n : nodedm) : list string := match nd_module n with Some l => l | None => [] end.

(* d is the device of the first group of the list that contains n and sets a device *)
Definition first_device (t : topo) (order : list string) (n d : string) : Prop :=
  exists l1 g l2, order = l1 ++ g :: l2 /\ in_group t g n /\ group_device t g = Some d /\
    forall h, In h l1 -> in_group t h n -> group_device t h = None.

Lemma add_missing_spec : forall ms have,
  (exists new, add_missing ms have = have ++ new /\ (forall m, In m new -> In m ms /\ ~ In m have)) /\
  (forall m, In m (add_missing ms have) <-> In m have \/ In m ms) /\
  (NoDup have -> NoDup (add_missing ms have)).
Proof.
  induction ms as [|m r IH]; intros have; simpl.
  - split; [exists []; rewrite app_nil_r; split; auto; intros m []|]. split; auto. intuition.
  - destruct (memS m have) eqn:E.
    + apply memS_true in E. destruct (IH have) as [[new [A1 A2]] [B C]]. split; [|split; auto].
      * exists new. split; auto. intros x Hx. destruct (A2 x Hx). auto.
      * intros x. rewrite B. split; [tauto|]. intros [K|[<-|K]]; auto.
    + apply memS_false in E. destruct (IH (have ++ [m])) as [[new [A1 A2]] [B C]]. split; [|split].
      * exists (m :: new). split; [rewrite A1, <- app_assoc; reflexivity|].
        intros x [<-|Hx]; auto. destruct (A2 x Hx) as [K1 K2]. split; auto. intros K3. apply K2. apply in_app_iff; auto.
      * intros x. rewrite B, in_app_iff. simpl. tauto.
      * intros N. apply C. apply NoDup_app_intro; auto; [constructor; [intros []|constructor]|].
        intros x Hx [<-|[]]. contradiction.
Qed.

Lemma add_missing_all : forall ms have, incl ms have -> add_missing ms have = have.
Proof.
  induction ms as [|m r IH]; intros have I; simpl; auto.
  assert (E : memS m have = true) by (apply memS_true; apply I; left; auto). rewrite E.
  apply IH. intros x Hx. apply I. right; auto.
Qed.

Lemma apply_dm_idem : forall gd n, apply_dm gd (apply_dm gd n) = apply_dm gd n.
Proof.
  intros gd [d m]. unfold apply_dm. simpl. f_equal.
  - destruct d; auto. destruct (g_device gd); auto.
  - destruct (g_module gd) as [ms|]; auto. f_equal. apply add_missing_all.
    intros x Hx. apply add_missing_spec. auto.
Qed.

Lemma copy_dm_spec : forall t order nodes errs nodes', copy_dm t order nodes = Ok (errs, nodes') ->
  dkeys nodes' = dkeys nodes /\
  forall n nd, dget n nodes = Some nd -> exists nd', dget n nodes' = Some nd' /\
    (forall d, nd_device nd' = Some d <->
       nd_device nd = Some d \/ nd_device nd = None /\ first_device t order n d) /\
    (exists new, node_modules nd' = node_modules nd ++ new) /\
    (forall m, In m (node_modules nd') <-> In m (node_modules nd) \/
       exists g, In g order /\ in_group t g n /\ In m (group_modules t g)) /\
    (NoDup (node_modules nd) -> NoDup (node_modules nd')).
Proof.
  induction order as [|g r IH]; intros nodes errs nodes' H.
  - simpl in H. injection H as <- <-. split; auto. intros n nd D. exists nd. split; auto.
    split; [|split; [exists []; rewrite app_nil_r; auto|split; auto]].
    + intros d. split; auto. intros [K|[_ [l1 [g [l2 [K _]]]]]]; auto. destruct l1; discriminate.
    + intros m. split; auto. intros [K|[g [[] _]]]; auto.
  - (* a group that changes nothing for n *)
    assert (Skip : forall (nodes1 : dict nodedm) errs1,
       copy_dm t r nodes1 = Ok (errs1, nodes') -> dkeys nodes1 = dkeys nodes ->
       (forall n nd, dget n nodes = Some nd -> exists nd1, dget n nodes1 = Some nd1 /\
          (nd1 = nd /\ (~ in_group t g n \/ group_device t g = None /\ group_modules t g = []) \/
           in_group t g n /\ exists gd, dget g (t_groups t) = Some gd /\ nd1 = apply_dm gd nd)) ->
       dkeys nodes' = dkeys nodes /\
       forall n nd, dget n nodes = Some nd -> exists nd', dget n nodes' = Some nd' /\
         (forall d, nd_device nd' = Some d <->
            nd_device nd = Some d \/ nd_device nd = None /\ first_device t (g :: r) n d) /\
         (exists new, node_modules nd' = node_modules nd ++ new) /\
         (forall m, In m (node_modules nd') <-> In m (node_modules nd) \/
            exists g', In g' (g :: r) /\ in_group t g' n /\ In m (group_modules t g')) /\
         (NoDup (node_modules nd) -> NoDup (node_modules nd'))).
    { intros nodes1 errs1 H1 K1 St. destruct (IH _ _ _ H1) as [K2 IH2]. split; [congruence|].
      intros n nd D. destruct (St n nd D) as [nd1 [D1 Hnd]]. destruct (IH2 n nd1 D1) as [nd' [D' [A [B [C E]]]]].
      exists nd'. split; auto. destruct Hnd as [[-> Hn]|[Hg [gd [Eg ->]]]].
      - split; [|split; [auto|split; auto]].
        + intros d. rewrite A. split; intros [K|[K1' [l1 [h [l2 [Ho [Hh [Hd Hb]]]]]]]]; auto; right; split; auto.
          * exists (g :: l1), h, l2. split; [rewrite Ho; auto|]. split; [auto|split; auto].
            intros h' [<-|Hh'] Hin; auto. destruct Hn as [Hn|[Hn _]]; [contradiction|auto].
          * destruct l1 as [|x l1]; simpl in Ho; injection Ho as <- Ho.
            -- destruct Hn as [Hn|[Hn _]]; [contradiction|congruence].
            -- exists l1, h, l2. split; auto. split; auto. split; auto. intros h' Hh'. apply Hb. right; auto.
        + intros m. rewrite C. split; intros [K|[h [Ho [Hh Hm]]]]; auto.
          * right. exists h. split; [right; auto|auto].
          * destruct Ho as [<-|Ho]; [|right; exists h; auto].
            destruct Hn as [Hn|[_ Hn]]; [contradiction|]. rewrite Hn in Hm. contradiction.
      - assert (Gd : group_device t g = g_device gd) by (unfold group_device; rewrite Eg; auto).
        assert (Gm : group_modules t g = match g_module gd with Some l => l | None => [] end)
          by (unfold group_modules; rewrite Eg; auto).
        assert (Nm : exists ms, ms = group_modules t g /\ node_modules (apply_dm gd nd) = add_missing ms (node_modules nd)).
        { exists (group_modules t g). split; auto. rewrite Gm. unfold node_modules, apply_dm. simpl.
          destruct (g_module gd); auto. }
        destruct Nm as [ms [Ems Nm]]. destruct (add_missing_spec ms (node_modules nd)) as [[new [S1 S2]] [S3 S4]].
        rewrite Nm in *. split; [|split; [|split]].
        + intros d. rewrite A. unfold apply_dm. simpl. destruct (nd_device nd) as [d0|] eqn:Ed.
          * split; intros [K|[K _]]; auto; discriminate.
          * rewrite <- Gd. destruct (group_device t g) as [d0|] eqn:Egd.
            -- split.
               ++ intros [K|[K _]]; [|discriminate]. right. split; auto. exists [], g, r.
                  split; auto. split; auto. split; [congruence|]. intros h [].
               ++ intros [K|[_ [l1 [h [l2 [Ho [Hh [Hd Hb]]]]]]]]; [discriminate|].
                  destruct l1 as [|x l1]; simpl in Ho; injection Ho as <- Ho.
                  ** left. congruence.
                  ** rewrite (Hb g) in Egd; [discriminate|left; auto|auto].
            -- split; intros [K|[_ [l1 [h [l2 [Ho [Hh [Hd Hb]]]]]]]]; try discriminate; right; split; auto.
               ++ exists (g :: l1), h, l2. split; [rewrite Ho; auto|]. split; [auto|split; auto].
                  intros h' [<-|Hh'] Hin; auto.
               ++ destruct l1 as [|x l1]; simpl in Ho; injection Ho as <- Ho; [congruence|].
                  exists l1, h, l2. split; auto. split; auto. split; auto. intros h' Hh'. apply Hb. right; auto.
        + destruct B as [nw B]. rewrite B, S1. exists (new ++ nw). rewrite app_assoc. auto.
        + intros m. rewrite C, S3, Ems. split.
          * intros [[K|K]|[h [Ho [Hh Hm]]]]; auto.
            -- right. exists g. split; [left; auto|auto].
            -- right. exists h. split; [right; auto|auto].
          * intros [K|[h [[<-|Ho] [Hh Hm]]]]; auto. right. exists h. auto.
        + auto. }
    simpl in H. match goal with |- ?G => remember G as Goal0 eqn:EG end.
    destruct (dget g (t_groups t)) as [gd|] eqn:Eg.
    + assert (Nothing : g_device gd = None -> g_module gd = None -> copy_dm t r nodes = Ok (errs, nodes') -> Goal0) by (intros E1 E2 H1; apply (Skip nodes errs H1 eq_refl); intros n nd D; exists nd;
                         split; auto; left; split; auto; right; unfold group_device, group_modules; rewrite Eg, E1, E2; auto).
      assert (Something : forall e0, match group_members t "node" g with
              | Err _ => Err Recursive
              | Ok [] => match copy_dm t r nodes with
                         | Ok (errs, ns) => Ok (g :: errs, ns)
                         | Err e => Err e
                         end
              | Ok ms => copy_dm t r (fold_left (update (apply_dm gd)) ms nodes)
              end = Ok (e0, nodes') -> Goal0).
      { intros e0 H1. destruct (group_members t "node" g) as [ms|e] eqn:Gm; [|discriminate].
        pose proof (group_members_exact t "node" g ms Gm) as Ex.
        destruct ms as [|m0 ms0] eqn:Ems.
        - destruct (copy_dm t r nodes) as [[er ns]|e] eqn:Cd; [|discriminate]. injection H1 as <- <-.
          apply (Skip nodes er Cd eq_refl). intros n nd D. exists nd. split; auto. left. split; auto. left.
          intros K. apply Ex in K. contradiction.
        - rewrite <- Ems in *. apply (Skip _ e0 H1).
          + apply dkeys_fold_update.
          + intros n nd D. destruct (dget_fold_update _ (apply_dm gd) n nd ms nodes (apply_dm_idem gd nd)) as [F _].
            exists (if memS n ms then apply_dm gd nd else nd). split; auto.
            destruct (memS n ms) eqn:M.
            * right. apply memS_true in M. apply Ex in M. split; auto. exists gd. auto.
            * left. split; auto. left. intros K. apply Ex in K. apply memS_false in M. contradiction. }
      destruct (g_device gd) eqn:Ed; [|destruct (g_module gd) eqn:Em].
      * exact (Something _ H).
      * exact (Something _ H).
      * exact (Nothing eq_refl eq_refl H).
    + apply (Skip nodes errs H eq_refl). intros n nd D. exists nd. split; auto. left. split; auto. right.
      unfold group_device, group_modules. rewrite Eg. auto.
Qed.

(* C19: with groups taken children first, a node without a device gets the device of the first
   group it belongs to that sets one, its own device is never changed, its modules are its own
   followed by those of all its groups, and no module is added twice. *)
Theorem group_device_module_copied : forall t nodes errs nodes', NoDup (dkeys (t_groups t)) ->
  copy_group_device_module t nodes = Ok (errs, nodes') ->
  exists order, group_order t order /\ dkeys nodes' = dkeys nodes /\
  forall n nd, dget n nodes = Some nd -> exists nd', dget n nodes' = Some nd' /\
    (forall d, nd_device nd' = Some d <->
       nd_device nd = Some d \/ nd_device nd = None /\ first_device t order n d) /\
    (exists new, node_modules nd' = node_modules nd ++ new) /\
    (forall m, In m (node_modules nd') <-> In m (node_modules nd) \/
       exists g, In g order /\ in_group t g n /\ In m (group_modules t g)) /\
    (NoDup (node_modules nd) -> NoDup (node_modules nd')).
Proof.
  intros t nodes errs nodes' N H. unfold copy_group_device_module in H.
  destruct (reverse_topsort t) as [order|] eqn:R; [|discriminate]. exists order.
  split; [eapply reverse_topsort_sound; eauto|]. eapply copy_dm_spec; eauto.
Qed.

Lemma nested_position : forall t order h g, group_order t order ->
  clos_trans_1n string (nested_real t) h g -> forall a b, order = a ++ h :: b -> ~ In g (h :: b).
Proof.
  intros t order h g [N [K C]]. induction 1 as [x y [[M _] _]|x z y [[M Mz] [_ Rz]] T IH]; intros a b E.
  - eapply C; eauto.
  - pose proof (C a x b E z M) as Nz.
    assert (Iz : In z order) by (apply K; auto).
    rewrite E in Iz. apply in_app_iff in Iz. destruct Iz as [Iz|Iz]; [|contradiction].
    apply in_split in Iz. destruct Iz as [a1 [a2 ->]].
    intros K2. apply (IH a1 (a2 ++ x :: b)).
    + rewrite E, <- app_assoc. reflexivity.
    + right. apply in_app_iff. auto.
Qed.

(* The device of the most specific group wins, whatever the order of groups in the topology. *)
Theorem most_specific_device_wins : forall t nodes errs nodes' n nd g d,
  NoDup (dkeys (t_groups t)) -> copy_group_device_module t nodes = Ok (errs, nodes') ->
  dget n nodes = Some nd -> nd_device nd = None ->
  in_group t g n -> is_real g -> group_device t g = Some d ->
  (forall h, in_group t h n -> is_real h -> group_device t h <> None -> h = g \/
     clos_trans string (nested_real t) h g) ->
  exists nd', dget n nodes' = Some nd' /\ nd_device nd' = Some d.
Proof.
  intros t nodes errs nodes' n nd g d N H D Nd Hg Rg Dg Sp.
  destruct (group_device_module_copied _ _ _ _ N H) as [order [O [_ F]]].
  destruct (F n nd D) as [nd' [D' [A _]]]. exists nd'. split; auto. apply A. right. split; auto.
  assert (Ig : In g order).
  { apply O. split; auto. unfold group_device in Dg. destruct (dget g (t_groups t)) eqn:E; [|discriminate].
    eapply dget_Some_key; eauto. }
  apply in_split in Ig. destruct Ig as [l1 [l2 E]]. exists l1, g, l2. split; auto. split; auto. split; auto.
  intros h Hh Hin. destruct (group_device t h) as [d'|] eqn:Dh; auto. exfalso.
  assert (Ih : In h order) by (rewrite E; apply in_app_iff; auto).
  assert (Rh : is_real h) by (apply O; auto).
  destruct (Sp h Hin Rh ltac:(congruence)) as [->|T].
  - destruct O as [No _]. rewrite E in No. apply NoDup_app_elim in No. destruct No as [_ [_ No]].
    apply (No g Hh). left; auto.
  - apply in_split in Hh. destruct Hh as [a1 [a2 ->]]. apply clos_trans_t1n in T.
    apply (nested_position t order h g O T a1 (a2 ++ g :: l2)).
    + rewrite E, <- app_assoc. reflexivity.
    + right. apply in_app_iff. right. left; auto.
Qed.

Local Open Scope string_scope.
Example group_device_case :
  copy_group_device_module ex_topo
    [("r1", mk_nodedm None (Some ["ospf"])); ("r3", mk_nodedm None None); ("rx", mk_nodedm (Some "ios") None)]
  = Ok ([], [("r1", mk_nodedm (Some "eos") (Some ["ospf"; "bgp"]));
             ("r3", mk_nodedm (Some "frr") (Some ["ospf"]));
             ("rx", mk_nodedm (Some "ios") (Some ["ospf"]))]).
Proof. reflexivity. Qed.
Local Close Scope string_scope.

(* ---------- C18: node data ---------- *)

Definition group_data (t : topo) (g : string) : option val :=
  match dget g (t_groups t) with Some gd => g_node_data gd | None => None end.

(* node data under key k is copied into the node: k is not a topology module the node lacks *)
Definition usable (topo_modules : list string) (node : val) (k : string) : Prop :=
  In k topo_modules -> forall ms, lookup ["module"%string] node = Some (VList ms) -> In (VStr k) ms.

(* group data is a dictionary that does not set the module list *)
Definition good_data (t : topo) : Prop := forall g d, group_data t g = Some d ->
  is_dict d = true /\ wf d /\ lookup ["module"%string] d = None.

Lemma strip_filter : forall tm node d,
  exists f, strip_modules tm node (VDict d) = VDict (filter (fun e => f (fst e)) d) /\
            forall k, f k = true <-> usable tm node k.
Proof.
  intros tm node d. unfold strip_modules.
  assert (Triv : (forall ms, lookup ["module"%string] node <> Some (VList ms)) ->
     exists f, VDict d = VDict (filter (fun e => f (fst e)) d) /\ forall k, f k = true <-> usable tm node k).
  { intros H. exists (fun _ => true). split.
    - f_equal. clear. induction d as [|e d IH]; simpl; congruence.
    - intros k. split; auto. intros _ _ ms E. exfalso. eapply H; eauto. }
  destruct (lookup ["module"%string] node) as [[| | | |ms|]|] eqn:E; try (apply Triv; intros; congruence).
  exists (fun k => negb (memS k tm) ||
            existsb (fun m => match m with VStr s => String.eqb s k | _ => false end) ms).
  split; auto. intros k. unfold usable. rewrite E. rewrite orb_true_iff, negb_true_iff, memS_false, existsb_exists. split.
  - intros [H|[x [H1 H2]]] K ms' E'; [contradiction|]. injection E' as <-.
    destruct x; try discriminate. apply String.eqb_eq in H2. subst. auto.
  - intros H. destruct (in_dec string_dec k tm) as [I|I]; auto. right. exists (VStr k). split; auto. apply String.eqb_refl.
Qed.

Lemma strip_is_dict : forall tm node d, is_dict d = true -> exists ds, strip_modules tm node d = VDict ds.
Proof.
  intros tm node d H. destruct d; try discriminate. destruct (strip_filter tm node d) as [f [-> _]]. eauto.
Qed.

Lemma strip_wf : forall tm node d, wf d -> wf (strip_modules tm node d).
Proof.
  intros tm node d H. destruct d; try (unfold strip_modules; destruct (lookup _ node) as [[]|]; exact H).
  destruct (strip_filter tm node d) as [f [-> _]]. apply wf_VDict. apply wf_VDict in H. destruct H as [N W].
  split.
  - rewrite dkeys_filter. apply NoDup_filter_str. auto.
  - intros k v Hin. apply filter_In in Hin. destruct Hin. eauto.
Qed.

Lemma strip_lookup : forall tm node d k p v, is_dict d = true ->
  (lookup (k :: p) (strip_modules tm node d) = Some v <-> usable tm node k /\ lookup (k :: p) d = Some v).
Proof.
  intros tm node d k p v H. destruct d; try discriminate.
  destruct (strip_filter tm node d) as [f [-> F]]. simpl. rewrite dget_filter. rewrite <- F.
  destruct (f k); [tauto|]. split; [discriminate|intros [C _]; discriminate].
Qed.

Lemma strip_overridden : forall tm node d k p, is_dict d = true ->
  (overridden (k :: p) (strip_modules tm node d) -> overridden (k :: p) d).
Proof.
  intros tm node d k p H. destruct d; try discriminate.
  destruct (strip_filter tm node d) as [f [-> F]]. rewrite !overridden_cons. rewrite dget_filter.
  destruct (f k); auto. intros [x [C _]]. discriminate.
Qed.

Section NodeData.
  Variable t : topo.
  Variable tm : list string.
  Hypothesis Good : good_data t.

  (* what group g adds to node n *)
  Definition contrib (node : val) (n g : string) : option val :=
    match group_data t g, group_members t "node" g with
    | Some d, Ok ms => if memS n ms then Some (strip_modules tm node d) else None
    | _, _ => None
    end.

  Definition add_contrib (node : val) (n : string) (acc : val) (g : string) : val :=
    match contrib node n g with Some s => merge s acc | None => acc end.

  (* acc is node with group data merged into it *)
  Definition based_on (node acc : val) : Prop :=
    is_dict acc = true /\ wf acc /\
    lookup ["module"%string] acc = lookup ["module"%string] node.

  Lemma based_strip : forall node acc d, based_on node acc -> strip_modules tm acc d = strip_modules tm node d.
  Proof. intros node acc d [_ [_ E]]. unfold strip_modules. rewrite E. reflexivity. Qed.

  Lemma based_merge : forall node acc d, based_on node acc ->
    is_dict d = true -> wf d -> lookup ["module"%string] d = None ->
    based_on node (merge (strip_modules tm node d) acc).
  Proof.
    intros node acc d [H1 [H2 H3]] D W M.
    assert (Ms : lookup ["module"%string] (strip_modules tm node d) = None).
    { destruct (lookup ["module"%string] (strip_modules tm node d)) eqn:E; auto.
      apply strip_lookup in E; auto. destruct E. congruence. }
    destruct (strip_is_dict tm node d D) as [ds Eds].
    pose proof (strip_wf tm node d W) as Ws. rewrite Eds in *.
    destruct acc as [| | | | |da]; try discriminate. split; [rewrite merge_dicts; auto|]. split.
    - apply merge_wf; auto.
    - rewrite <- H3. rewrite merge_dicts. simpl in *.
      rewrite dget_mdict by (apply wf_VDict in H2; apply H2).
      destruct (dget "module" ds); [discriminate|]. destruct (dget "module" da); auto.
  Qed.

  Lemma contrib_data : forall node n g s, contrib node n g = Some s ->
    exists d, group_data t g = Some d /\ in_group t g n /\ s = strip_modules tm node d /\
      is_dict d = true /\ wf d /\ lookup ["module"%string] d = None.
  Proof.
    intros node n g s H. unfold contrib in H. destruct (group_data t g) as [d|] eqn:G; [|discriminate].
    destruct (group_members t "node" g) as [ms|] eqn:M; [|discriminate].
    destruct (memS n ms) eqn:E; [|discriminate]. injection H as <-. exists d.
    apply memS_true in E. apply (group_members_exact _ _ _ _ M) in E.
    destruct (Good g d G) as [A [B C]]. repeat split; auto.
  Qed.

  Lemma based_step : forall node n acc g, based_on node acc -> based_on node (add_contrib node n acc g).
  Proof.
    intros node n acc g H. unfold add_contrib. destruct (contrib node n g) as [s|] eqn:E; auto.
    apply contrib_data in E. destruct E as [d [_ [_ [-> [A [B C]]]]]]. apply based_merge; auto.
  Qed.

  Lemma based_fold : forall node n order acc, based_on node acc ->
    based_on node (fold_left (add_contrib node n) order acc).
  Proof.
    induction order as [|g r IH]; intros acc H; simpl; auto. apply IH. apply based_step. auto.
  Qed.

  Lemma copy_data_fold : forall order nodes nodes', copy_data t tm order nodes = Ok nodes' ->
    dkeys nodes' = dkeys nodes /\
    (forall g, In g order -> group_data t g <> None -> exists ms, group_members t "node" g = Ok ms) /\
    forall n node acc, dget n nodes = Some acc -> based_on node acc ->
      dget n nodes' = Some (fold_left (add_contrib node n) order acc).
  Proof.
    induction order as [|g r IH]; intros nodes nodes' H.
    - simpl in H. injection H as <-. split; auto. split; auto. intros g [].
    - simpl in H. destruct (dget g (t_groups t)) as [gd|] eqn:Eg.
      + destruct (g_node_data gd) as [data|] eqn:En.
        * destruct (group_members t "node" g) as [ms|] eqn:Gm; [|discriminate].
          destruct (IH _ _ H) as [K [M F]]. rewrite dkeys_fold_update in K. split; auto. split.
          { intros g' [<-|Hg'] Hn; eauto. }
          intros n node acc D B.
          assert (Gd : group_data t g = Some data) by (unfold group_data; rewrite Eg; auto).
          destruct (Good g data Gd) as [D1 [D2 D3]].
          assert (Ap : forall a, based_on node a -> apply_data tm data a = merge (strip_modules tm node data) a).
          { intros a Ba. rewrite <- (based_strip node a data Ba). destruct Ba as [Ba _]. destruct a; try discriminate. reflexivity. }
          pose proof (based_merge node acc data B D1 D2 D3) as Bm.
          assert (Id : apply_data tm data (apply_data tm data acc) = apply_data tm data acc).
          { rewrite (Ap acc B), (Ap _ Bm). apply merge_absorbing; [apply strip_wf; auto|apply B]. }
          destruct (dget_fold_update _ (apply_data tm data) n acc ms nodes Id) as [F1 _]. specialize (F1 D).
          simpl. unfold add_contrib at 2. unfold contrib. rewrite Gd, Gm. destruct (memS n ms).
          -- rewrite (Ap acc B) in F1. apply F; auto.
          -- apply F; auto.
        * destruct (IH _ _ H) as [K [M F]]. split; auto.
          assert (Gd : group_data t g = None) by (unfold group_data; rewrite Eg; auto). split.
          { intros g' [<-|Hg'] Hn; [congruence|auto]. }
          intros n node acc D B. simpl. unfold add_contrib at 2. unfold contrib. rewrite Gd. apply F; auto.
      + destruct (IH _ _ H) as [K [M F]]. split; auto.
        assert (Gd : group_data t g = None) by (unfold group_data; rewrite Eg; auto). split.
        { intros g' [<-|Hg'] Hn; [congruence|auto]. }
        intros n node acc D B. simpl. unfold add_contrib at 2. unfold contrib. rewrite Gd. apply F; auto.
  Qed.

  Lemma fold_keeps : forall node n order acc p v, based_on node acc ->
    leaf p acc v -> leaf p (fold_left (add_contrib node n) order acc) v.
  Proof.
    induction order as [|g r IH]; intros acc p v B H; simpl; auto. apply IH; [apply based_step; auto|].
    unfold add_contrib. destruct (contrib node n g); auto. apply merge_leaves; auto. apply B.
  Qed.

  Lemma fold_origin : forall node n order acc k p v, based_on node acc ->
    leaf (k :: p) (fold_left (add_contrib node n) order acc) v ->
    leaf (k :: p) acc v \/
    exists g d, In g order /\ in_group t g n /\ group_data t g = Some d /\ usable tm node k /\ leaf (k :: p) d v.
  Proof.
    induction order as [|g r IH]; intros acc k p v B H; simpl in *; auto.
    destruct (IH _ _ _ _ (based_step _ _ _ _ B) H) as [K|[g' [d [H1 H2]]]].
    - unfold add_contrib in K. destruct (contrib node n g) as [s|] eqn:E; auto.
      apply merge_leaves in K; [|apply B]. destruct K as [K|[K _]]; auto.
      apply contrib_data in E. destruct E as [d [E1 [E2 [-> [E3 _]]]]].
      destruct K as [K1 K2]. apply strip_lookup in K1; auto. destruct K1 as [K0 K1].
      right. exists g, d. unfold leaf. auto 6.
    - right. exists g', d. destruct H2 as [H2 [H3 [H4 H5]]]. auto 6.
  Qed.

  Lemma fold_first : forall node n order acc k p v l1 g l2 d, based_on node acc ->
    order = l1 ++ g :: l2 -> (exists s, contrib node n g = Some s) -> group_data t g = Some d ->
    usable tm node k -> leaf (k :: p) d v -> ~ overridden (k :: p) acc ->
    (forall h dh, In h l1 -> in_group t h n -> group_data t h = Some dh -> ~ overridden (k :: p) dh) ->
    leaf (k :: p) (fold_left (add_contrib node n) order acc) v.
  Proof.
    induction order as [|x r IH]; intros acc k p v l1 g l2 d B E C G U L O Hb; [destruct l1; discriminate|].
    simpl. destruct l1 as [|y l1]; simpl in E; injection E as -> E.
    - apply fold_keeps; [apply based_step; auto|]. unfold add_contrib. destruct C as [s C]. rewrite C.
      apply contrib_data in C. destruct C as [d' [C1 [C2 [-> [C3 _]]]]]. assert (d' = d) by congruence. subst d'.
      apply merge_leaves; [apply B|]. right. split; auto. destruct L as [L1 L2]. split; auto.
      apply strip_lookup; auto.
    - apply (IH _ k p v l1 g l2 d); auto.
      + apply based_step; auto.
      + unfold add_contrib. destruct (contrib node n y) as [s|] eqn:Cy; auto.
        intros K. apply merge_overridden in K; [|apply B]. destruct K as [K|K]; auto.
        apply contrib_data in Cy. destruct Cy as [dy [C1 [C2 [-> [C3 _]]]]].
        apply strip_overridden in K; auto. eapply Hb; eauto. left; auto.
      + intros h dh Hh. apply Hb. right; auto.
  Qed.

  Lemma fold_subsumes : forall node n order acc g s, based_on node acc ->
    (In g order \/ subsumed s acc) -> contrib node n g = Some s ->
    subsumed s (fold_left (add_contrib node n) order acc).
  Proof.
    induction order as [|x r IH]; intros acc g s B H C; simpl.
    - destruct H as [[]|H]; auto.
    - apply (IH _ g); auto; [apply based_step; auto|].
      destruct H as [[->|H]|H]; auto.
      + right. unfold add_contrib. rewrite C. apply subsumed_merge_self; [|apply B].
        apply contrib_data in C. destruct C as [d [_ [_ [-> [_ [W _]]]]]]. apply strip_wf; auto.
      + right. unfold add_contrib. destruct (contrib node n x); auto. apply subsumed_merge; auto. apply B.
  Qed.

  Lemma fold_stable : forall node n order acc, based_on node acc ->
    (forall g s, In g order -> contrib node n g = Some s -> subsumed s acc) ->
    forall p v, leaf p (fold_left (add_contrib node n) order acc) v <-> leaf p acc v.
  Proof.
    induction order as [|x r IH]; intros acc B H p v; simpl; [tauto|].
    rewrite IH; [|apply based_step; auto|].
    - unfold add_contrib. destruct (contrib node n x) as [s|] eqn:C; [|tauto].
      apply subsumed_leaves; [apply B|]. eapply H; eauto. left; auto.
    - intros g s Hg C. unfold add_contrib. destruct (contrib node n x) as [s'|] eqn:C'.
      + apply subsumed_merge; [apply B|]. eapply H; eauto. right; auto.
      + eapply H; eauto. right; auto.
  Qed.
End NodeData.

(* a node as the copy finds it *)
Definition good_node (node : val) : Prop := is_dict node = true /\ wf node.

(* C18: node data of groups, taken children first, is merged under the data of the node:
   values of the node never change, every other value comes from a group the node belongs to,
   and the first such group that says something about an attribute decides it. *)
Theorem group_node_data_copied : forall t tm nodes nodes',
  NoDup (dkeys (t_groups t)) -> good_data t -> copy_group_node_data t tm nodes = Ok nodes' ->
  exists order, group_order t order /\ dkeys nodes' = dkeys nodes /\
  forall n node, dget n nodes = Some node -> good_node node ->
    exists node', dget n nodes' = Some node' /\ good_node node' /\
    (forall p v, leaf p node v -> leaf p node' v) /\
    (forall k p v, leaf (k :: p) node' v -> leaf (k :: p) node v \/
       exists g d, In g order /\ in_group t g n /\ group_data t g = Some d /\ usable tm node k /\ leaf (k :: p) d v) /\
    (forall k p v l1 g l2 d, order = l1 ++ g :: l2 -> in_group t g n -> group_data t g = Some d ->
       usable tm node k -> leaf (k :: p) d v -> ~ overridden (k :: p) node ->
       (forall h dh, In h l1 -> in_group t h n -> group_data t h = Some dh -> ~ overridden (k :: p) dh) ->
       leaf (k :: p) node' v).
Proof.
  intros t tm nodes nodes' N G H. unfold copy_group_node_data in H.
  destruct (reverse_topsort t) as [order|] eqn:R; [|discriminate]. exists order.
  split; [eapply reverse_topsort_sound; eauto|].
  destruct (copy_data_fold t tm G order nodes nodes' H) as [K [M F]]. split; auto.
  intros n node D [Dn Wn].
  assert (B : based_on node node) by (split; [auto|split; auto]).
  exists (fold_left (add_contrib t tm node n) order node). split; [apply F; auto|].
  pose proof (based_fold t tm G node n order node B) as [B1 [B2 _]]. split; [split; auto|]. split; [|split].
  - intros p v L. apply fold_keeps; auto.
  - intros k p v L. eapply fold_origin; eauto.
  - intros k p v l1 g l2 d E Hg Hd U L O Hb. apply (fold_first t tm G node n order node k p v l1 g l2 d); auto.
    destruct (M g) as [ms Hms]; [rewrite E; apply in_app_iff; right; left; auto|congruence|].
    unfold contrib. rewrite Hd, Hms. apply (group_members_exact _ _ _ _ Hms) in Hg. apply memS_true in Hg. rewrite Hg. eauto.
Qed.

(* Copying the group data a second time changes no value of any node. *)
Theorem group_node_data_idempotent : forall t tm nodes nodes1 nodes2,
  NoDup (dkeys (t_groups t)) -> good_data t ->
  copy_group_node_data t tm nodes = Ok nodes1 -> copy_group_node_data t tm nodes1 = Ok nodes2 ->
  forall n node, dget n nodes = Some node -> good_node node ->
    exists node1 node2, dget n nodes1 = Some node1 /\ dget n nodes2 = Some node2 /\
    forall p v, leaf p node2 v <-> leaf p node1 v.
Proof.
  intros t tm nodes nodes1 nodes2 N G H1 H2 n node D [Dn Wn]. unfold copy_group_node_data in *.
  destruct (reverse_topsort t) as [order|] eqn:R; [|discriminate].
  destruct (copy_data_fold t tm G order nodes nodes1 H1) as [_ [_ F1]].
  destruct (copy_data_fold t tm G order nodes1 nodes2 H2) as [_ [_ F2]].
  assert (B : based_on node node) by (split; [auto|split; auto]).
  specialize (F1 n node node D B).
  pose proof (based_fold t tm G node n order node B) as B1.
  exists (fold_left (add_contrib t tm node n) order node), (fold_left (add_contrib t tm node n) order (fold_left (add_contrib t tm node n) order node)).
  split; auto. split; [apply F2; auto|]. intros p v. apply fold_stable; auto.
  intros g s Hg C. apply (fold_subsumes t tm G node n order node g s); auto.
Qed.

Local Open Scope string_scope.
Lemma ex_topo_good : good_data ex_topo.
Proof.
  intros g d H. unfold group_data in H.
  destruct (dget g (t_groups ex_topo)) as [gd|] eqn:E; [|discriminate].
  apply dget_In in E. simpl in E.
  destruct E as [E|[E|[E|[]]]]; injection E as <- <-; simpl in H; try discriminate; injection H as <-;
    (split; [reflexivity|split; [|reflexivity]]); simpl; repeat split; auto;
    repeat (constructor; [simpl; intuition discriminate|]); constructor.
Qed.

Example group_node_data_case :
  good_data ex_topo /\
  copy_group_node_data ex_topo ["ospf"; "bgp"]
    [("r1", VDict [("ospf", VDict [("area", VInt 7%Z)])]);
     ("r3", VDict [("module", VList [VStr "bgp"])]);
     ("rx", VDict [])]
  = Ok [("r1", VDict [("ospf", VDict [("area", VInt 7%Z); ("cost", VInt 1%Z)]); ("role", VStr "core")]);
        ("r3", VDict [("module", VList [VStr "bgp"])]);
        ("rx", VDict [("ospf", VDict [("area", VInt 0%Z); ("cost", VInt 5%Z)])])].
Proof. split; [exact ex_topo_good|reflexivity]. Qed.
Local Close Scope string_scope.

(* ---------- C20: config templates ---------- *)

Definition group_config (t : topo) (g : string) : list string :=
  match dget g (t_groups t) with
  | Some gd => match g_config gd with Some l => l | None => [] end
  | None => []
  end.

Definition is_request (c : string) : bool :=
  match c with String a _ => Ascii.eqb a "-" | EmptyString => false end.

(* templates left after removal requests: an entry is used unless a later "-" or "-name"
   removes it *)
Fixpoint kept (l : list string) : list string :=
  match l with
  | [] => []
  | c :: r => if is_request c || memS "-" r || memS (String "-" c) r then kept r else c :: kept r
  end.

Definition dropped_by (r : list string) (c : string) : bool := memS "-" r || memS (String "-" c) r.

Lemma dropped_cons_req : forall rest r x, rest <> EmptyString ->
  dropped_by (String "-" rest :: r) x = String.eqb x rest || dropped_by r x.
Proof.
  intros rest r x N. unfold dropped_by, memS. cbn [existsb].
  destruct rest as [|b rest]; [congruence|].
  change (String.eqb "-" (String "-" (String b rest))) with false.
  change (String.eqb (String "-" x) (String "-" (String b rest))) with (String.eqb x (String b rest)).
  destruct (String.eqb x (String b rest)), (existsb (String.eqb "-") r); reflexivity.
Qed.

Lemma dropped_cons_plain : forall a rest r x, a <> "-"%char ->
  dropped_by (String a rest :: r) x = dropped_by r x.
Proof.
  intros a rest r x N. unfold dropped_by, memS. cbn [existsb].
  destruct (String.eqb_spec "-" (String a rest)) as [E|E]; [congruence|].
  destruct (String.eqb_spec (String "-" x) (String a rest)) as [E2|E2]; [congruence|]. reflexivity.
Qed.

Lemma removal_loop_spec : forall l acc,
  removal_loop l acc =
  if memS EmptyString l then None
  else Some (filter (fun c => negb (dropped_by l c)) acc ++ kept l).
Proof.
  induction l as [|c r IH]; intros acc; simpl.
  - rewrite app_nil_r. f_equal. induction acc as [|x a IHa]; simpl; congruence.
  - change (existsb (String.eqb EmptyString) r) with (memS EmptyString r).
    destruct (String.eqb_spec c "-") as [E|E].
    + subst c. rewrite IH. simpl. destruct (memS EmptyString r); auto. f_equal.
      assert (Z : forall a, filter (fun c => negb (dropped_by ("-"%string :: r) c)) a = [])
        by (induction a as [|x a IHa]; simpl; auto).
      rewrite Z. reflexivity.
    + destruct c as [|a rest]; simpl; [auto|].
      destruct (Ascii.eqb_spec a "-") as [Ea|Ea].
      * subst a. rewrite IH. destruct (memS EmptyString r); auto. f_equal. f_equal.
        assert (Nr : rest <> EmptyString) by (intros ->; apply E; reflexivity).
        clear IH. induction acc as [|x ac IHa]; simpl; auto.
        rewrite (dropped_cons_req rest r x Nr).
        destruct (String.eqb x rest); simpl; rewrite <- IHa; auto.
      * rewrite IH. destruct (memS EmptyString r); auto. f_equal.
        rewrite filter_app, <- app_assoc. f_equal.
        -- apply filter_ext. intros x. rewrite (dropped_cons_plain a rest r x Ea). reflexivity.
        -- simpl. unfold dropped_by. destruct (memS "-"%string r || memS (String "-" (String a rest)) r); reflexivity.
Qed.

(* The templates a node ends up with, position by position. *)
Lemma kept_iff : forall l c, In c (kept l) <->
  exists l1 l2, l = l1 ++ c :: l2 /\ is_request c = false /\ ~ In "-"%string l2 /\ ~ In (String "-" c) l2.
Proof.
  induction l as [|x r IH]; intros c; simpl.
  - split; [intros []|]. intros [l1 [l2 [E _]]]. destruct l1; discriminate.
  - destruct (is_request x || memS "-" r || memS (String "-" x) r) eqn:B.
    + rewrite IH. split; intros [l1 [l2 [E [H1 [H2 H3]]]]].
      * exists (x :: l1), l2. subst. auto.
      * destruct l1 as [|y l1]; simpl in E; injection E as -> E.
        -- exfalso. subst. apply memS_false in H2. apply memS_false in H3. rewrite H1, H2, H3 in B. discriminate.
        -- exists l1, l2. auto.
    + apply orb_false_iff in B. destruct B as [B B3]. apply orb_false_iff in B. destruct B as [B1 B2].
      apply memS_false in B2. apply memS_false in B3. simpl. rewrite IH. split.
      * intros [<-|[l1 [l2 [E H]]]].
        -- exists [], r. auto.
        -- exists (x :: l1), l2. subst. auto.
      * intros [l1 [l2 [E [H1 [H2 H3]]]]]. destruct l1 as [|y l1]; simpl in E; injection E as -> E; auto.
        right. exists l1, l2. auto.
Qed.

(* g applies to node n *)
Definition config_applies (t : topo) (g n : string) : Prop := in_group t g n \/ g = "all"%string.

Lemma phase1_spec : forall t order nodes nodes', config_phase1 t order nodes = Ok nodes' ->
  dkeys nodes' = dkeys nodes /\
  forall n, exists sel, (forall g, In g order -> group_config t g <> [] -> (sel g = true <-> config_applies t g n)) /\
    forall l, dget n nodes = Some l ->
      dget n nodes' = Some (flat_map (group_config t) (rev (filter sel order)) ++ l).
Proof.
  induction order as [|g r IH]; intros nodes nodes' H.
  - simpl in H. injection H as <-. split; auto. intros n. exists (fun _ => true). split; [intros g []|auto].
  - simpl in H.
    assert (Skip : group_config t g = [] -> config_phase1 t r nodes = Ok nodes' ->
      dkeys nodes' = dkeys nodes /\
      forall n, exists sel, (forall g', In g' (g :: r) -> group_config t g' <> [] -> (sel g' = true <-> config_applies t g' n)) /\
      forall l, dget n nodes = Some l ->
      dget n nodes' = Some (flat_map (group_config t) (rev (filter sel (g :: r))) ++ l)).
    { intros E H1. destruct (IH _ _ H1) as [K F]. split; auto. intros n. destruct (F n) as [sel [S1 S2]].
      exists sel. split.
      - intros g' [<-|Hg]; [contradiction|auto].
      - intros l D. rewrite (S2 l D). f_equal. f_equal. simpl. destruct (sel g); auto. simpl.
        rewrite flat_map_app. simpl. rewrite E. simpl. rewrite app_nil_r. auto. }
    destruct (dget g (t_groups t)) as [gd|] eqn:Eg.
    + destruct (g_config gd) as [cfg|] eqn:Ec.
      * assert (Gc : group_config t g = cfg) by (unfold group_config; rewrite Eg, Ec; auto).
        destruct (group_members t "node" g) as [ms|] eqn:Gm; [|discriminate].
        destruct (IH _ _ H) as [K F]. split.
        { rewrite K. unfold dkeys. rewrite map_map. apply map_ext. intros [k v]. simpl.
          destruct (memS k ms || String.eqb g "all"); auto. }
        intros n. destruct (F n) as [sel [S1 S2]].
        set (here := memS n ms || String.eqb g "all").
        exists (fun x => if String.eqb x g then here else sel x). split.
        -- intros g' [<-|Hg] Hc.
           ++ rewrite String.eqb_refl. unfold here, config_applies.
              rewrite orb_true_iff, memS_true, String.eqb_eq, (group_members_exact _ _ _ _ Gm). tauto.
           ++ destruct (String.eqb_spec g' g) as [E|E]; auto. rewrite E. unfold here, config_applies.
              rewrite orb_true_iff, memS_true, String.eqb_eq, (group_members_exact _ _ _ _ Gm). tauto.
        -- (* later occurrences of g in the order behave the same *)
           intros l D.
           assert (Dm : dget n (map (fun e => if memS (fst e) ms || String.eqb g "all"
                                   then (fst e, cfg ++ snd e) else e) nodes)
                        = Some (if here then cfg ++ l else l)).
           { clear -D. unfold here. induction nodes as [|[k v] d IHd]; simpl in *; [discriminate|].
             destruct (String.eqb_spec n k) as [E|E].
             - subst k. injection D as ->. destruct (memS n ms || String.eqb g "all"); simpl; rewrite String.eqb_refl; auto.
             - destruct (memS k ms || String.eqb g "all"); simpl; destruct (String.eqb_spec n k); try congruence; auto. }
           rewrite (S2 _ Dm). f_equal.
           assert (Fx : flat_map (group_config t) (rev (filter sel r)) =
                        flat_map (group_config t) (rev (filter (fun x => if String.eqb x g then here else sel x) r))).
           { clear -S1 Gc Gm. induction r as [|x r IHr]; simpl; auto.
             assert (I : flat_map (group_config t) (rev (filter sel r)) =
                        flat_map (group_config t) (rev (filter (fun x => if String.eqb x g then here else sel x) r)))
               by (apply IHr; intros y Hy; apply S1; right; auto).
             destruct (String.eqb_spec x g) as [E|E].
             - subst x. destruct (list_eq_dec string_dec (group_config t g) []) as [Ge|Ge].
               + destruct (sel g), here; simpl; rewrite ?flat_map_app; simpl; rewrite ?Ge, ?app_nil_r; auto.
               + assert (Es : sel g = here).
                 { specialize (S1 g (or_introl eq_refl) Ge). unfold here, config_applies in *.
                   apply eq_true_iff_eq. rewrite S1, orb_true_iff, memS_true, String.eqb_eq, (group_members_exact _ _ _ _ Gm). tauto. }
                 rewrite Es. destruct here; simpl; rewrite ?flat_map_app, I; auto.
             - destruct (sel x); simpl; rewrite ?flat_map_app, I; auto. }
           rewrite Fx. simpl. rewrite String.eqb_refl. destruct here; auto.
           simpl. rewrite flat_map_app. simpl. rewrite Gc, app_nil_r, <- app_assoc. auto.
      * apply Skip; auto. unfold group_config. rewrite Eg, Ec. auto.
    + apply Skip; auto. unfold group_config. rewrite Eg. auto.
Qed.

Lemma phase2_spec : forall nodes nodes', config_phase2 nodes = Ok nodes' ->
  dkeys nodes' = dkeys nodes /\
  forall n l, dget n nodes = Some l -> dget n nodes' = Some (kept l).
Proof.
  induction nodes as [|[k v] d IH]; intros nodes' H.
  - simpl in H. injection H as <-. split; auto. intros n l K. discriminate.
  - simpl in H. rewrite removal_loop_spec in H. destruct (memS EmptyString v); [discriminate|].
    simpl in H. destruct (config_phase2 d) as [y|]; [|discriminate]. injection H as <-.
    destruct (IH y eq_refl) as [K F]. split; [simpl; congruence|].
    intros n l D. simpl in *. destruct (String.eqb n k); auto. congruence.
Qed.

(* C20: the template list of a node is the concatenation of the lists of its groups, least
   specific first, followed by its own list, without the entries removed by a later "-" or
   "-name" and without the removal requests. *)
Theorem node_config_exact : forall t nodes nodes', NoDup (dkeys (t_groups t)) ->
  node_config_templates t nodes = Ok nodes' ->
  exists order, group_order t order /\ dkeys nodes' = dkeys nodes /\
  forall n, exists sel,
    (forall g, In g order -> group_config t g <> [] -> (sel g = true <-> config_applies t g n)) /\
    forall l, dget n nodes = Some l -> exists l',
      dget n nodes' = Some l' /\
      l' = kept (flat_map (group_config t) (rev (filter sel order)) ++ l).
Proof.
  intros t nodes nodes' N H. unfold node_config_templates in H.
  destruct (reverse_topsort t) as [order|] eqn:R; [|discriminate]. exists order.
  split; [eapply reverse_topsort_sound; eauto|].
  destruct (config_phase1 t order nodes) as [ns|] eqn:P1; [|discriminate].
  apply phase1_spec in P1. apply phase2_spec in H. destruct P1 as [K1 F1], H as [K2 F2].
  split; [congruence|]. intros n. destruct (F1 n) as [sel [S1 S2]]. exists sel. split; auto.
  intros l D. eexists. split; [|reflexivity]. apply F2. auto.
Qed.

(* A template survives exactly when it is not a removal request and is not removed later on. *)
Theorem config_template_survives_iff : forall l c, In c (kept l) <->
  exists l1 l2, l = l1 ++ c :: l2 /\ is_request c = false /\ ~ In "-"%string l2 /\ ~ In (String "-" c) l2.
Proof. exact kept_iff. Qed.

(* An empty template name stops the transformation with an IndexError. *)
Theorem empty_template_name_refuted :
  exists t nodes, node_config_templates t nodes = Err BadConfig.
Proof. exists ex_topo, [("r1"%string, [EmptyString])]. reflexivity. Qed.

Local Open Scope string_scope.
Example node_config_case :
  node_config_templates ex_topo [("r1", ["-base"; "mine"]); ("r3", []); ("host", ["h"])]
  = Ok [("r1", ["mpls"; "mine"]); ("r3", ["base"; "snmp"]); ("host", ["h"])].
Proof. reflexivity. Qed.
Local Close Scope string_scope.

Print Assumptions recursive_groups_detected.
Print Assumptions reverse_topsort_sound.
Print Assumptions reverse_topsort_ends_iff_acyclic.
Print Assumptions checked_groups_sortable.
Print Assumptions group_members_exact.
Print Assumptions group_members_fails_iff.
Print Assumptions group_members_succeeds.
Print Assumptions group_members_deep_refuted.
Print Assumptions group_device_module_copied.
Print Assumptions most_specific_device_wins.
Print Assumptions group_node_data_copied.
Print Assumptions group_node_data_idempotent.
Print Assumptions node_config_exact.
Print Assumptions config_template_survives_iff.
Print Assumptions empty_template_name_refuted.
