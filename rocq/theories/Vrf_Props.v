(* Properties C35, C36, C37 and C63: VRF ids, route distinguishers, route targets, VRF indices. *)
From Coq Require Import String Ascii ZArith Lia Bool List Permutation Decimal DecimalString DecimalZ.
From Verif Require Import Base IdAlloc_Model IdAlloc_Props Text_Model Text_Props Types_Model Types_Props Vrf_Model.
Import ListNotations.
Open Scope Z_scope.

(* ------------------------------------------------------------------ *)
(* Specification                                                        *)

(* (None, v) is the global VRF v, (Some n, v) VRF v of node n. *)
Definition vslot := (option string * string)%type.

Definition vrf_at (t : rtopo) (s : vslot) : option vrf :=
  match s with
  | (None, k) => match rt_vrfs t with Some d => dget k d | None => None end
  | (Some n, k) =>
      match dget n (rt_nodes t) with
      | Some nd => match rn_vrfs nd with Some d => dget k d | None => None end
      | None => None
      end
  end.

(* the VRFs the VRF module works with: global VRFs and VRFs of nodes using the module *)
Definition active (t : rtopo) (s : vslot) : Prop :=
  match fst s with
  | None => True
  | Some n => exists nd, dget n (rt_nodes t) = Some nd /\ rn_module nd = true
  end.

(* the AS number used in automatic RDs: the first one of node bgp.as, node vrf.as, bgp.as, vrf.as *)
Definition slot_asn (t : rtopo) (s : vslot) : option string :=
  match fst s with
  | None => topo_asn t
  | Some n => match dget n (rt_nodes t) with Some nd => node_asn t nd | None => None end
  end.

(* attributes given by the user *)
Definition has_id (t : rtopo) (s : vslot) : Prop := exists x i, vrf_at t s = Some x /\ vr_id x = Some i.
Definition has_rd (t : rtopo) (s : vslot) : Prop := exists x r, vrf_at t s = Some x /\ vr_rd x = Some r.

(* node VRF s takes the identifiers of the global VRF with the same name *)
Definition copies (t : rtopo) (s : vslot) : Prop :=
  fst s <> None /\ active t s /\ vrf_at t (None, snd s) <> None /\ ~ (has_id t s /\ has_rd t s).

(* the VRF whose identifiers s uses *)
Definition owned_by (t : rtopo) (s o : vslot) : Prop :=
  (copies t s /\ o = (None, snd s)) \/ (~ copies t s /\ o = s).

(* ------------------------------------------------------------------ *)
(* Strings                                                              *)

Lemma string_app_inj : forall a b c, (a ++ b)%string = (a ++ c)%string -> b = c.
Proof. induction a as [|x a IH]; cbn; intros b c H; auto. injection H as H. auto. Qed.

Lemma to_int_not_nil : forall n, Z.to_int n <> Pos Nil /\ Z.to_int n <> Neg Nil.
Proof.
  intros n. pose proof (to_of (Z.to_int n)) as H. rewrite of_to in H.
  split; intros C; rewrite C in H; discriminate.
Qed.

Lemma zdec_inj : forall a b, zdec a = zdec b -> a = b.
Proof.
  intros a b H. unfold zdec in H.
  destruct (to_int_not_nil a) as [A1 A2]. destruct (to_int_not_nil b) as [B1 B2].
  pose proof (NilZero.isi _ A1 A2) as Ia. pose proof (NilZero.isi _ B1 B2) as Ib.
  rewrite H in Ia. assert (E : Z.to_int a = Z.to_int b) by congruence.
  rewrite <- (of_to a), <- (of_to b). congruence.
Qed.

Lemma fmt_rd_inj : forall asn a b, fmt_rd asn a = fmt_rd asn b -> a = b.
Proof.
  intros asn a b H. unfold fmt_rd in H. apply string_app_inj in H. injection H as H. apply zdec_inj; auto.
Qed.

(* ------------------------------------------------------------------ *)
(* Allocation                                                           *)

(* what an allocation run did: pairs of new ids and RDs *)
Definition grown2 (st st' : vrf_state) (news : list (Z * string)) : Prop :=
  (forall i, In i (iv_used (fst st)) -> In i (iv_used (fst st')))
  /\ (forall r, In r (snd st) -> In r (snd st'))
  /\ (forall p, In p news -> In (fst p) (iv_used (fst st')) /\ ~ In (fst p) (iv_used (fst st))
                             /\ In (snd p) (snd st') /\ ~ In (snd p) (snd st) /\ 1 <= fst p <= 4095)
  /\ NoDup (map fst news) /\ NoDup (map snd news).

Lemma grown2_nil : forall st, grown2 st st [].
Proof. intros st. split; [auto|]. split; [auto|]. split; [intros p []|]. split; constructor. Qed.

Lemma grown2_trans : forall s1 s2 s3 a b, grown2 s1 s2 a -> grown2 s2 s3 b -> grown2 s1 s3 (a ++ b).
Proof.
  intros s1 s2 s3 a b [A1 [A2 [A3 [A4 A5]]]] [B1 [B2 [B3 [B4 B5]]]].
  split; [auto|]. split; [auto|]. split; [|split].
  - intros p Hp. apply in_app_or in Hp. destruct Hp as [Hp|Hp].
    + apply A3 in Hp. intuition.
    + apply B3 in Hp. intuition.
  - rewrite map_app. apply NoDup_app_intro; auto. intros i Ha Hb.
    apply in_map_iff in Ha. destruct Ha as [p [<- Hp]]. apply in_map_iff in Hb. destruct Hb as [q [E Hq]].
    apply B3 in Hq. apply A3 in Hp. rewrite E in Hq. tauto.
  - rewrite map_app. apply NoDup_app_intro; auto. intros i Ha Hb.
    apply in_map_iff in Ha. destruct Ha as [p [<- Hp]]. apply in_map_iff in Hb. destruct Hb as [q [E Hq]].
    apply B3 in Hq. apply A3 in Hp. rewrite E in Hq. tauto.
Qed.

Definition st_ok (st : vrf_state) : Prop := counter_inv 1 4095 (fst st).

Lemma counter_next1 : forall v i v', counter_inv 1 4095 v -> get_next_id v = Ok (i, v') ->
  counter_inv 1 4095 v' /\ 1 <= i <= 4095.
Proof.
  intros v i v' C H. split.
  - apply (counter_inv_step 1 4095 OpNext v (EvAuto i) v'); cbn; auto. now rewrite H.
  - apply get_next_id_ok in H. destruct H as [n [Hn [H1 [_ [_ [H2 _]]]]]].
    destruct C as [Cm [n' [Cn [Cr _]]]]. rewrite Hn in Cn. inversion Cn; subst. lia.
Qed.

Lemma next_vrf_loop_ok : forall fuel asn st i r st',
  st_ok st -> next_vrf_loop fuel asn st = Ok ((i, r), st') ->
  st_ok st' /\ grown2 st st' [(i, r)] /\ r = fmt_rd asn i.
Proof.
  induction fuel as [|f IH]; intros asn st i r st' OK H; cbn [next_vrf_loop] in H; [discriminate|].
  destruct (get_next_id (fst st)) as [[j v']|e] eqn:E; [|discriminate].
  destruct (counter_next1 _ _ _ OK E) as [OK' Hr].
  pose proof (get_next_id_ok _ _ _ E) as [n [_ [_ [Hf [_ [_ Hv]]]]]].
  destruct (memS (fmt_rd asn j) (snd st)) eqn:M.
  - apply IH in H; [|exact OK']. destruct H as [H1 [[G1 [G2 [G3 G4]]] H3]]. split; [auto|]. split; [|auto].
    cbn [fst snd] in *. split; [|split; [|split]]; auto.
    + intros k Hk. apply G1. rewrite Hv. right. auto.
    + intros p Hp. apply G3 in Hp. destruct Hp as [P1 [P2 [P3 [P4 P5]]]].
      split; [auto|]. split; [|auto]. intros C. apply P2. rewrite Hv. right. auto.
  - apply memS_false in M. injection H as <- <- <-. split; [exact OK'|]. split; [|reflexivity].
    cbn [fst snd]. split; [|split; [|split]].
    + cbn [fst]. intros k Hk. rewrite Hv. right. auto.
    + cbn [snd]. intros k Hk. right. auto.
    + intros p [<-|[]]. cbn [fst snd]. split; [rewrite Hv; left; auto|]. split; [auto|].
      split; [left; auto|]. auto.
    + cbn. split; (constructor; [intros []|constructor]).
Qed.

Lemma next_vrf_loop_fuel : forall fuel asn st,
  next_vrf_loop fuel asn st = Err FatalFuel ->
  exists l, length l = fuel /\ NoDup l /\ (forall i, In i l -> ~ In i (iv_used (fst st)) /\ In (fmt_rd asn i) (snd st)).
Proof.
  induction fuel as [|f IH]; intros asn st H; cbn [next_vrf_loop] in H.
  - exists []. split; [reflexivity|]. split; [constructor|]. intros i [].
  - destruct (get_next_id (fst st)) as [[j v']|e] eqn:E; [|discriminate].
    pose proof (get_next_id_ok _ _ _ E) as [n [_ [_ [Hf [_ [_ Hv]]]]]].
    destruct (memS (fmt_rd asn j) (snd st)) eqn:M; [|discriminate].
    apply memS_true in M. apply IH in H. destruct H as [l [L1 [L2 L3]]]. exists (j :: l).
    split; [cbn; congruence|]. split.
    + constructor; auto. intros C. apply L3 in C. apply (proj1 C). cbn [fst]. rewrite Hv. left. auto.
    + intros i [<-|Hi]; auto. apply L3 in Hi. destruct Hi as [Hi1 Hi2]. split; auto.
      intros C. apply Hi1. cbn [fst]. rewrite Hv. right. auto.
Qed.

(* the fuel of the model is never exhausted *)
Theorem get_next_vrf_id_no_fuel : forall asn st, get_next_vrf_id asn st <> Err FatalFuel.
Proof.
  intros asn st H. apply next_vrf_loop_fuel in H. destruct H as [l [L1 [L2 L3]]].
  assert (I : incl (map (fmt_rd asn) l) (snd st)).
  { intros r Hr. apply in_map_iff in Hr. destruct Hr as [i [<- Hi]]. apply L3; auto. }
  assert (N : NoDup (map (fmt_rd asn) l)).
  { clear - L2. induction L2 as [|x l Hx HN IHl]; cbn; constructor; auto.
    intros C. apply in_map_iff in C. destruct C as [y [E Hy]]. apply fmt_rd_inj in E. subst. auto. }
  pose proof (NoDup_incl_length N I) as L. rewrite map_length in L. lia.
Qed.

(* ------------------------------------------------------------------ *)
(* Dictionaries                                                         *)

Lemma F2_dget : forall A B (R : string * A -> string * B -> Prop) d d' k y,
  (forall a b, R a b -> fst b = fst a) -> Forall2 R d d' -> dget k d' = Some y ->
  exists x, dget k d = Some x /\ R (k, x) (k, y).
Proof.
  intros A B R d d' k y HR F. induction F as [|[a x] [b z] d d' H F IH]; cbn [dget]; [discriminate|].
  pose proof (HR _ _ H) as E. cbn [fst] in E. subst b.
  destruct (String.eqb k a) eqn:Ek; intros G; auto.
  apply String.eqb_eq in Ek. subst. injection G as ->. exists x. auto.
Qed.

Lemma F2_dget_fwd : forall A B (R : string * A -> string * B -> Prop) d d' k x,
  (forall a b, R a b -> fst b = fst a) -> Forall2 R d d' -> dget k d = Some x ->
  exists y, dget k d' = Some y /\ R (k, x) (k, y).
Proof.
  intros A B R d d' k x HR F. induction F as [|[a z] [b y] d d' H F IH]; cbn [dget]; [discriminate|].
  pose proof (HR _ _ H) as E. cbn [fst] in E. subst b.
  destruct (String.eqb k a) eqn:Ek; intros G; auto.
  apply String.eqb_eq in Ek. subst. injection G as ->. exists y. auto.
Qed.

Lemma F2_impl : forall A B (R R' : A -> B -> Prop) l l',
  (forall a b, R a b -> R' a b) -> Forall2 R l l' -> Forall2 R' l l'.
Proof. intros A B R R' l l' H F. induction F; constructor; auto. Qed.

Lemma F2_refl : forall A (R : A -> A -> Prop) l, (forall a, R a a) -> Forall2 R l l.
Proof. intros A R l H. induction l; constructor; auto. Qed.

(* ------------------------------------------------------------------ *)
(* normalize_vrf_ids                                                    *)

(* the RD after normalization: integers are prefixed with the AS number *)
Definition rd_norm (asn : option string) (o o' : option rdv) : Prop :=
  match o with
  | Some (RdInt n) => exists a, asn = Some a /\ o' = Some (RdStr (fmt_rd a n))
  | _ => o' = o
  end.

Definition vrf_norm (asn : option string) (a b : string * vrf) : Prop :=
  fst b = fst a /\ vr_id (snd b) = vr_id (snd a) /\ rd_norm asn (vr_rd (snd a)) (vr_rd (snd b))
  /\ vr_import (snd b) = vr_import (snd a) /\ vr_export (snd b) = vr_export (snd a).

Lemma normalize_dict_ok : forall res asn d d',
  normalize_vrf_dict res asn d = (d', []) -> Forall2 (vrf_norm asn) d d'.
Proof.
  induction d as [|[k x] d IH]; intros d' H; cbn [normalize_vrf_dict] in H.
  - injection H as <-. constructor.
  - destruct (normalize_vrf_dict res asn d) as [r' e] eqn:E.
    assert (P : forall e1 e2 : list vrf_report, e1 ++ e2 = [] -> e1 = [] /\ e2 = []).
    { intros e1 e2 He. apply app_eq_nil in He. auto. }
    destruct (vr_rd x) as [[|n|s]|] eqn:Er.
    + injection H as <- He. apply P in He. destruct He as [_ ->]. constructor; auto.
      repeat split; cbn [fst snd]; auto. rewrite Er. cbn. auto.
    + destruct asn as [a|].
      * injection H as <- He. apply P in He. destruct He as [_ ->]. constructor; auto.
        repeat split; cbn [fst snd vr_rd vr_id]; auto. rewrite Er. cbn. eauto.
      * injection H as <- He. apply P in He. destruct He as [_ He]. discriminate.
    + injection H as <- He. apply P in He. destruct He as [_ He]. apply P in He. destruct He as [_ ->].
      constructor; auto. repeat split; cbn [fst snd]; auto. rewrite Er. cbn. auto.
    + injection H as <- He. apply P in He. destruct He as [_ ->]. constructor; auto.
      repeat split; cbn [fst snd]; auto. rewrite Er. cbn. auto.
Qed.

Definition opt_norm (asn : option string) (o o' : option (dict vrf)) : Prop :=
  match o, o' with
  | None, None => True
  | Some d, Some d' => Forall2 (vrf_norm asn) d d'
  | _, _ => False
  end.

Lemma normalize_opt_ok : forall res asn o o', normalize_opt res asn o = (o', []) -> opt_norm asn o o'.
Proof.
  intros res asn [d|] o' H; cbn [normalize_opt] in H.
  - destruct (normalize_vrf_dict res asn d) as [d' e] eqn:E. injection H as <- ->. cbn.
    apply normalize_dict_ok in E. auto.
  - injection H as <-. cbn. auto.
Qed.

Definition node_norm (t : rtopo) (a b : string * rnode) : Prop :=
  fst b = fst a /\ exists o, snd b = set_rn_vrfs (snd a) o /\ opt_norm (node_asn t (snd a)) (rn_vrfs (snd a)) o.

Lemma normalize_nodes_ok : forall t ns ns', normalize_nodes t ns = (ns', []) -> Forall2 (node_norm t) ns ns'.
Proof.
  intros t. induction ns as [|[k n] ns IH]; intros ns' H; cbn [normalize_nodes] in H.
  - injection H as <-. constructor.
  - destruct (normalize_opt (rt_reserved t) (node_asn t n) (rn_vrfs n)) as [o e] eqn:E1.
    destruct (normalize_nodes t ns) as [r' e'] eqn:E2. injection H as <- He.
    apply app_eq_nil in He. destruct He as [-> ->]. constructor; auto.
    split; [reflexivity|]. exists o. split; [reflexivity|]. apply normalize_opt_ok in E1. auto.
Qed.

Lemma normalize_ids_ok : forall t t1, normalize_vrf_ids t = (t1, []) ->
  exists o ns, t1 = set_topo t o ns /\ opt_norm (topo_asn t) (rt_vrfs t) o /\ Forall2 (node_norm t) (rt_nodes t) ns.
Proof.
  intros t t1 H. unfold normalize_vrf_ids in H.
  destruct (normalize_opt (rt_reserved t) (topo_asn t) (rt_vrfs t)) as [o e] eqn:E1.
  destruct (normalize_nodes t (rt_nodes t)) as [ns e'] eqn:E2. injection H as <- He.
  apply app_eq_nil in He. destruct He as [-> ->]. exists o, ns. split; [reflexivity|].
  apply normalize_opt_ok in E1. apply normalize_nodes_ok in E2. auto.
Qed.

(* ------------------------------------------------------------------ *)
(* populate_vrf_static_ids                                              *)

Lemma vrf_id_set_In : forall d k x i, dget k d = Some x -> vr_id x = Some i -> In i (vrf_id_set d).
Proof.
  intros d k x i H E. apply dget_In in H. unfold vrf_id_set. apply in_flat_map. exists (k, x).
  split; auto. cbn [snd]. rewrite E. left. auto.
Qed.

Lemma vrf_rd_set_In : forall d k x s, dget k d = Some x -> vr_rd x = Some (RdStr s) -> In s (vrf_rd_set d).
Proof.
  intros d k x i H E. apply dget_In in H. unfold vrf_rd_set. apply in_flat_map. exists (k, x).
  split; auto. cbn [snd]. rewrite E. left. auto.
Qed.

Lemma populate_fold : forall (ns : dict rnode) st,
  let st' := fold_left (fun s (kn : string * rnode) => extend_static (opt_vrfs (rn_vrfs (snd kn))) s) ns st in
  (forall i, In i (iv_used (fst st)) -> In i (iv_used (fst st')))
  /\ (forall r, In r (snd st) -> In r (snd st'))
  /\ iv_next (fst st') = iv_next (fst st) /\ iv_max (fst st') = iv_max (fst st)
  /\ (forall n nd, In (n, nd) ns ->
        (forall i, In i (vrf_id_set (opt_vrfs (rn_vrfs nd))) -> In i (iv_used (fst st')))
        /\ (forall r, In r (vrf_rd_set (opt_vrfs (rn_vrfs nd))) -> In r (snd st'))).
Proof.
  induction ns as [|[n nd] ns IH]; intros st.
  - cbn [fold_left]. repeat split; auto. all: intros; contradiction.
  - cbn [fold_left]. specialize (IH (extend_static (opt_vrfs (rn_vrfs (snd (n, nd)))) st)).
    destruct IH as [I1 [I2 [I3 [I4 I5]]]]. cbn [snd extend_static extend_id_set fst iv_used iv_next iv_max] in *.
    split; [|split; [|split; [|split]]]; auto.
    + intros i Hi. apply I1. apply in_or_app. auto.
    + intros r Hr. apply I2. apply in_or_app. auto.
    + intros n' nd' [H|H].
      * injection H as -> ->. split; intros z Hz; [apply I1|apply I2]; apply in_or_app; auto.
      * apply I5 in H. auto.
Qed.

Lemma populate_spec : forall t,
  let st := populate_vrf_static_ids t init_vrf_static_ids in
  st_ok st
  /\ (forall s x i, vrf_at t s = Some x -> vr_id x = Some i -> In i (iv_used (fst st)))
  /\ (forall s x r, vrf_at t s = Some x -> vr_rd x = Some (RdStr r) -> In r (snd st)).
Proof.
  intros t. unfold populate_vrf_static_ids.
  pose proof (populate_fold (rt_nodes t) (extend_static (opt_vrfs (rt_vrfs t)) init_vrf_static_ids)) as [P1 [P2 [P3 [P4 P5]]]].
  cbn zeta. split; [|split].
  - unfold st_ok, counter_inv. rewrite P3, P4. cbn. split; auto. exists 1. split; auto. split; [lia|]. intros; lia.
  - intros [[n|] k] x i H E; cbn [vrf_at] in H.
    + destruct (dget n (rt_nodes t)) as [nd|] eqn:En; [|discriminate].
      destruct (rn_vrfs nd) as [d|] eqn:Ed; [|discriminate].
      apply dget_In in En. apply P5 in En. apply (proj1 En). rewrite Ed. cbn. eapply vrf_id_set_In; eauto.
    + destruct (rt_vrfs t) as [d|] eqn:Ed; [|discriminate]. apply P1.
      cbn [extend_static fst extend_id_set iv_used]. apply in_or_app. left. eapply vrf_id_set_In; eauto.
  - intros [[n|] k] x r H E; cbn [vrf_at] in H.
    + destruct (dget n (rt_nodes t)) as [nd|] eqn:En; [|discriminate].
      destruct (rn_vrfs nd) as [d|] eqn:Ed; [|discriminate].
      apply dget_In in En. apply P5 in En. apply (proj2 En). rewrite Ed. cbn. eapply vrf_rd_set_In; eauto.
    + destruct (rt_vrfs t) as [d|] eqn:Ed; [|discriminate]. apply P2.
      cbn [extend_static snd]. apply in_or_app. left. eapply vrf_rd_set_In; eauto.
Qed.

(* ------------------------------------------------------------------ *)
(* set_vrf_ids and set_import_export_rt                                 *)

Definition filled (gl : dict vrf) (news : list (string * (Z * string))) (a b : string * vrf) : Prop :=
  fst b = fst a
  /\ vr_import (snd b) = vr_import (snd a) /\ vr_export (snd b) = vr_export (snd a)
  /\ ((vr_id (snd a) <> None /\ vr_rd (snd a) <> None /\ snd b = snd a)
      \/ ((vr_id (snd a) = None \/ vr_rd (snd a) = None) /\
          ((exists g, dget (fst a) gl = Some g /\ vr_id (snd b) = vr_id g /\ vr_rd (snd b) = vr_rd g)
           \/ (dget (fst a) gl = None /\ exists p, In (fst a, p) news
               /\ vr_id (snd b) = Some (match vr_id (snd a) with Some i => i | None => fst p end)
               /\ vr_rd (snd b) = Some (match vr_rd (snd a) with Some r => r | None => RdStr (snd p) end))))).

Lemma filled_mono : forall gl n1 n2 a b, incl n1 n2 -> filled gl n1 a b -> filled gl n2 a b.
Proof.
  intros gl n1 n2 a b I [H1 [H2 [H3 H4]]]. split; [auto|]. split; [auto|]. split; [auto|].
  destruct H4 as [H4|[H4 [H5|[H5 [p [H6 H7]]]]]]; auto. right. split; auto. right. split; auto.
  exists p. split; auto.
Qed.

Lemma set_vrf_ids_ok : forall gl asn d st d' st',
  st_ok st -> set_vrf_ids gl asn d st = Ok (d', st', []) ->
  exists news, st_ok st' /\ grown2 st st' (map snd news) /\ Forall2 (filled gl news) d d'.
Proof.
  intros gl asn. induction d as [|[k x] d IH]; intros st d' st' OK H; cbn [set_vrf_ids] in H.
  - injection H as <- <-. exists []. split; [auto|]. split; [apply grown2_nil|constructor].
  - assert (Hn : vrf_needs_id x = false -> vr_id x <> None /\ vr_rd x <> None).
    { unfold vrf_needs_id. destruct (vr_rd x), (vr_id x); try discriminate. intros _. split; discriminate. }
    assert (Hy : vrf_needs_id x = true -> vr_id x = None \/ vr_rd x = None).
    { unfold vrf_needs_id. destruct (vr_rd x), (vr_id x); try discriminate; auto. }
    destruct (vrf_needs_id x); cbn [negb] in H.
    + specialize (Hy eq_refl). destruct (dget k gl) as [g|] eqn:G.
      * destruct (set_vrf_ids gl asn d st) as [[[r' s'] e]|e] eqn:E; [|discriminate].
        injection H as <- <- ->. apply IH in E; [|auto]. destruct E as [news [O1 [G1 F1]]].
        exists news. split; [auto|]. split; [auto|]. constructor; auto.
        split; [reflexivity|]. cbn [fst snd vr_import vr_export vr_id vr_rd].
        split; [auto|]. split; [auto|]. right. split; auto. left. exists g. auto.
      * destruct asn as [a|]; [|discriminate].
        destruct (get_next_vrf_id a st) as [[[i r] st1]|e] eqn:N; [|discriminate].
        unfold get_next_vrf_id in N. apply next_vrf_loop_ok in N; [|auto]. destruct N as [O1 [G1 _]].
        destruct (set_vrf_ids gl (Some a) d st1) as [[[r' s'] e]|e] eqn:E; [|discriminate].
        injection H as <- <- ->. apply IH in E; [|auto]. destruct E as [news [O2 [G2 F2]]].
        exists ((k, (i, r)) :: news). split; [auto|]. split.
        { cbn [map snd]. change ((i, r) :: map snd news) with ([(i, r)] ++ map snd news). eapply grown2_trans; eauto. }
        constructor.
        { split; [reflexivity|]. cbn [fst snd set_vrf_auto_id vr_import vr_export vr_id vr_rd].
          split; [auto|]. split; [auto|]. right. split; auto. right. split; auto. exists (i, r).
          split; [left; auto|]. cbn [fst snd]. destruct (vr_id x), (vr_rd x); auto. }
        eapply F2_impl; [|exact F2]. intros p q. apply filled_mono. intros z Hz. right. auto.
    + specialize (Hn eq_refl). destruct (set_vrf_ids gl asn d st) as [[[r' s'] e]|e] eqn:E; [|discriminate].
      injection H as <- <- ->. apply IH in E; [|auto]. destruct E as [news [O1 [G1 F1]]].
      exists news. split; [auto|]. split; [auto|]. constructor; auto.
      split; [reflexivity|]. cbn [fst snd]. split; [auto|]. split; [auto|]. left. tauto.
Qed.

(* the meaning of a route target list, [look] gives the VRF a name stands for *)
Inductive rts_denote (asn : option string) (look : string -> option vrf) : list rtv -> list rtv -> Prop :=
| rts_nil : rts_denote asn look [] []
| rts_int : forall a n l l', asn = Some a -> rts_denote asn look l l' ->
    rts_denote asn look (RtInt n :: l) (RtStr (a ++ ":" ++ zdec n) :: l')
| rts_str : forall s l l', In ":"%char (list_ascii_of_string s) -> rts_denote asn look l l' ->
    rts_denote asn look (RtStr s :: l) (RtStr s :: l')
| rts_vrf : forall s x r l l', no_char ":" s -> look s = Some x -> vr_rd x = Some (RdStr r) -> rts_denote asn look l l' ->
    rts_denote asn look (RtStr s :: l) (RtStr r :: l')
| rts_skip : forall s x l l', no_char ":" s -> look s = Some x -> vr_rd x = Some RdNone -> rts_denote asn look l l' ->
    rts_denote asn look (RtStr s :: l) l'.

Definition no_int (d : dict vrf) : Prop := forall k x n, dget k d = Some x -> vr_rd x <> Some (RdInt n).

Definition lookup2 (gl own : dict vrf) (s : string) : option vrf :=
  match dget s gl with Some g => Some g | None => dget s own end.

Lemma expand_rts_ok : forall k asn gl own l l',
  no_int gl -> no_int own ->
  expand_rts k asn gl own l = Ok (l', []) -> rts_denote asn (lookup2 gl own) l l'.
Proof.
  intros k asn gl own l l' Ng No. revert l'. induction l as [|v l IH]; intros l' H; cbn [expand_rts] in H.
  - injection H as <-. constructor.
  - destruct v as [n|s| |].
    + destruct asn as [a|].
      * destruct (expand_rts k (Some a) gl own l) as [[r' e']|e'] eqn:E; [|discriminate].
        cbn [app] in H. injection H as <- ->. apply (rts_int _ _ a n); auto.
      * destruct (expand_rts k None gl own l) as [[r' e']|e'] eqn:E; discriminate.
    + destruct (existsb (Ascii.eqb ":") (list_ascii_of_string s)) eqn:C.
      * destruct (parse_rdrt_ok s).
        -- destruct (expand_rts k asn gl own l) as [[r' e']|e'] eqn:E; [|discriminate].
           cbn [app] in H. injection H as <- ->. apply rts_str; auto.
           apply existsb_exists in C. destruct C as [c [C1 C2]]. apply Ascii.eqb_eq in C2. subst. auto.
        -- destruct (expand_rts k asn gl own l) as [[r' e']|e'] eqn:E; discriminate.
      * assert (NC : no_char ":" s).
        { intros C'. assert (T : existsb (Ascii.eqb ":") (list_ascii_of_string s) = true); [|congruence].
          apply existsb_exists. exists ":"%char. split; [auto|]. apply Ascii.eqb_refl. }
        unfold get_vrf_id in H. fold (lookup2 gl own s) in H. destruct (lookup2 gl own s) as [x|] eqn:L.
        -- destruct (vr_rd x) as [rd|] eqn:R; [|discriminate].
           destruct (expand_rts k asn gl own l) as [[r' e']|e'] eqn:E; [|discriminate].
           cbn [app] in H. injection H as <- ->. destruct rd as [|n|r]; cbn [rd_value app].
           ++ eapply rts_skip; eauto.
           ++ exfalso. unfold lookup2 in L. destruct (dget s gl) as [g|] eqn:G.
              ** injection L as ->. eapply Ng; eauto.
              ** eapply No; eauto.
           ++ eapply rts_vrf; eauto.
        -- destruct (expand_rts k asn gl own l) as [[r' e']|e'] eqn:E; discriminate.
    + destruct (expand_rts k asn gl own l) as [[r' e']|e'] eqn:E; discriminate.
    + destruct (expand_rts k asn gl own l) as [[r' e']|e'] eqn:E; discriminate.
Qed.

(* one route target list; [parent]: the list of the global VRF *)
Definition rt_list_ok (asn : option string) (look : string -> option vrf) (rd : option rdv)
  (parent : option (option (list rtv))) (o o' : option (list rtv)) : Prop :=
  match o with
  | Some l => exists l', o' = Some l' /\ rts_denote asn look l l'
  | None => match parent with Some p => o' = p | None => o' = Some [rd_as_rt rd] end
  end.

Lemma one_rt_list_ok : forall k asn gl own rd parent o o',
  no_int gl -> no_int own ->
  one_rt_list k asn gl own rd parent o = Ok (o', []) -> rt_list_ok asn (lookup2 gl own) rd parent o o'.
Proof.
  intros k asn gl own rd parent o o' Ng No H. unfold one_rt_list in H. destruct o as [l|]; cbn [rt_list_ok].
  - destruct (expand_rts k asn gl own l) as [[l' e]|e] eqn:E; [|discriminate]. injection H as <- ->.
    exists l'. split; auto. eapply expand_rts_ok; eauto.
  - destruct parent as [p|]; injection H as <-; auto.
Qed.

Definition rts_set (asn : option string) (par gl own : dict vrf) (a b : string * vrf) : Prop :=
  fst b = fst a /\ vr_id (snd b) = vr_id (snd a) /\ vr_rd (snd b) = vr_rd (snd a)
  /\ rt_list_ok asn (lookup2 gl own) (vr_rd (snd a)) (option_map vr_import (dget (fst a) par)) (vr_import (snd a)) (vr_import (snd b))
  /\ rt_list_ok asn (lookup2 gl own) (vr_rd (snd a)) (option_map vr_export (dget (fst a) par)) (vr_export (snd a)) (vr_export (snd b)).

Lemma set_import_export_rt_ok : forall par gl own asn d d',
  no_int gl -> no_int own ->
  set_import_export_rt par gl own asn d = Ok (d', []) -> Forall2 (rts_set asn par gl own) d d'.
Proof.
  intros par gl own asn d d' Ng No. revert d'. induction d as [|[k x] d IH]; intros d' H; cbn [set_import_export_rt] in H.
  - injection H as <-. constructor.
  - destruct (one_rt_list k asn gl own (vr_rd x) (option_map vr_import (dget k par)) (vr_import x)) as [[im e1]|e] eqn:E1; [|discriminate].
    destruct (one_rt_list k asn gl own (vr_rd x) (option_map vr_export (dget k par)) (vr_export x)) as [[ex e2]|e] eqn:E2; [|discriminate].
    destruct (set_import_export_rt par gl own asn d) as [[r' e3]|e] eqn:E3; [|discriminate].
    injection H as <- He. apply app_eq_nil in He. destruct He as [-> He]. apply app_eq_nil in He. destruct He as [-> ->].
    constructor; auto. split; [reflexivity|]. cbn [fst snd vr_id vr_rd vr_import vr_export].
    split; [auto|]. split; [auto|]. split; eapply one_rt_list_ok; eauto.
Qed.

(* ------------------------------------------------------------------ *)
(* The whole transformation                                             *)

Lemma norm_key : forall asn a b, vrf_norm asn a b -> fst b = fst a.
Proof. intros asn a b [H _]. auto. Qed.
Lemma filled_key : forall gl n a b, filled gl n a b -> fst b = fst a.
Proof. intros gl n a b [H _]. auto. Qed.
Lemma rts_set_key : forall asn par gl own a b, rts_set asn par gl own a b -> fst b = fst a.
Proof. intros asn par gl own a b [H _]. auto. Qed.

Lemma norm_no_int : forall asn d d', Forall2 (vrf_norm asn) d d' -> no_int d'.
Proof.
  intros asn d d' F k x' n H E. destruct (F2_dget _ _ _ _ _ _ _ (norm_key asn) F H) as [x [Hx [_ [_ [R _]]]]].
  cbn [snd] in R. unfold rd_norm in R. destruct (vr_rd x) as [[|m|s]|]; try congruence.
  destruct R as [a [_ R]]. congruence.
Qed.

Lemma filled_no_int : forall gl news d d', no_int gl -> no_int d -> Forall2 (filled gl news) d d' -> no_int d'.
Proof.
  intros gl news d d' Ng Nd F k x' n H E.
  destruct (F2_dget _ _ _ _ _ _ _ (filled_key gl news) F H) as [x [Hx [_ [_ [_ R]]]]]. cbn [fst snd] in R.
  destruct R as [[_ [_ R]]|[_ [[g [G [_ R]]]|[_ [p [_ [_ R]]]]]]].
  - subst x'. eapply Nd; eauto.
  - apply (Ng k g n G). congruence.
  - destruct (vr_rd x) as [r|] eqn:Er; [|congruence]. apply (Nd k x n Hx). congruence.
Qed.

Lemma rts_no_int : forall asn par gl own d d', no_int d -> Forall2 (rts_set asn par gl own) d d' -> no_int d'.
Proof.
  intros asn par gl own d d' Nd F k x' n H E.
  destruct (F2_dget _ _ _ _ _ _ _ (rts_set_key asn par gl own) F H) as [x [Hx [_ [_ [R _]]]]]. cbn [fst snd] in R.
  apply (Nd k x n Hx). congruence.
Qed.

Lemma pull_fold : forall l d k,
  dget k (fold_left (fun d k => if dmem k d then d else dset k empty_vrf d) l d) =
  match dget k d with Some x => Some x | None => if memS k l then Some empty_vrf else None end.
Proof.
  induction l as [|a l IH]; intros d k; cbn [fold_left].
  - cbn. destruct (dget k d); auto.
  - rewrite IH. unfold dmem. change (memS k (a :: l)) with (String.eqb k a || memS k l)%bool.
    destruct (String.eqb k a) eqn:E.
    + apply String.eqb_eq in E. subst a. cbn [orb]. destruct (dget k d) eqn:D.
      * rewrite D. auto.
      * rewrite dget_dset_same. auto.
    + cbn [orb]. apply String.eqb_neq in E. destruct (dget a d) eqn:D; auto.
      rewrite dget_dset_other; auto.
Qed.

Lemma pull_dget : forall n d k x, pull_vlan_vrfs n = Some d -> dget k d = Some x ->
  match rn_vrfs n with Some d0 => dget k d0 = Some x \/ (dget k d0 = None /\ x = empty_vrf) | None => x = empty_vrf end.
Proof.
  intros n d k x H D. unfold pull_vlan_vrfs in H. destruct (rn_vrfs n) as [d0|].
  - injection H as <-. rewrite pull_fold in D. destruct (dget k d0); auto.
    destruct (memS k (rn_vlan_vrfs n)); [|discriminate]. right. split; auto. congruence.
  - destruct (rn_vlan_vrfs n) as [|a l] eqn:E; [discriminate|]. injection H as <-.
    change (dget k (fold_left (fun d k => if dmem k d then d else dset k empty_vrf d) (a :: l) []) = Some x) in D.
    rewrite pull_fold in D. cbn [dget] in D.
    destruct (memS k (a :: l)); [|discriminate]. congruence.
Qed.

Lemma pull_keeps : forall n d0 k x, rn_vrfs n = Some d0 -> dget k d0 = Some x ->
  exists d, pull_vlan_vrfs n = Some d /\ dget k d = Some x.
Proof.
  intros n d0 k x H D. unfold pull_vlan_vrfs. rewrite H. eexists. split; [reflexivity|].
  rewrite pull_fold, D. auto.
Qed.

Lemma pull_no_int : forall n d, pull_vlan_vrfs n = Some d -> no_int (opt_vrfs (rn_vrfs n)) -> no_int d.
Proof.
  intros n d H N k x m D E. pose proof (pull_dget _ _ _ _ H D) as P. destruct (rn_vrfs n) as [d0|]; cbn [opt_vrfs] in N.
  - destruct P as [P|[_ P]]; [eapply N; eauto|]. subst x. discriminate.
  - subst x. discriminate.
Qed.

(* what happens to a node *)
Definition node_done (t : rtopo) (news : list (vslot * (Z * string))) (a b : string * rnode) : Prop :=
  fst b = fst a
  /\ if rn_module (snd a) then
       match pull_vlan_vrfs (snd a) with
       | None => snd b = snd a
       | Some d => exists newsn d1 d2,
           (forall k p, In (k, p) newsn -> In ((Some (fst a), k), p) news)
           /\ Forall2 (filled (opt_vrfs (rt_vrfs t)) newsn) d d1
           /\ Forall2 (rts_set (node_asn t (snd a)) (opt_vrfs (rt_vrfs t)) (opt_vrfs (rt_vrfs t)) d1) d1 d2
           /\ snd b = set_rn_vrfs (snd a) (Some d2)
       end
     else snd b = snd a.

Lemma node_done_mono : forall t n1 n2 a b, incl n1 n2 -> node_done t n1 a b -> node_done t n2 a b.
Proof.
  intros t n1 n2 a b I [H1 H2]. split; auto. destruct (rn_module (snd a)); auto.
  destruct (pull_vlan_vrfs (snd a)) as [d|]; auto. destruct H2 as [nn [d1 [d2 [P1 [P2 P3]]]]].
  exists nn, d1, d2. split; auto.
Qed.

Lemma node_done_key : forall t n a b, node_done t n a b -> fst b = fst a.
Proof. intros t n a b [H _]. auto. Qed.

Lemma nodes_ok : forall t ns st ns' st',
  st_ok st -> no_int (opt_vrfs (rt_vrfs t)) ->
  (forall n nd, In (n, nd) ns -> no_int (opt_vrfs (rn_vrfs nd))) ->
  nodes_pre_transform t ns st = Ok (ns', st', []) ->
  exists news, st_ok st' /\ grown2 st st' (map snd news) /\ Forall2 (node_done t news) ns ns'.
Proof.
  intros t. induction ns as [|[k n] ns IH]; intros st ns' st' OK Ng Nn H; cbn [nodes_pre_transform] in H.
  - injection H as <- <-. exists []. split; [auto|]. split; [apply grown2_nil|constructor].
  - destruct (if rn_module n then node_pre_transform t n st else Ok (n, st, [])) as [[[n' st1] e1]|e] eqn:E; [|discriminate].
    destruct (nodes_pre_transform t ns st1) as [[[r' st2] e2]|e] eqn:E2; [|discriminate].
    injection H as <- <- He. apply app_eq_nil in He. destruct He as [-> ->].
    assert (A : exists newsn, st_ok st1 /\ grown2 st st1 (map snd newsn) /\
                 node_done t (map (fun kp : string * (Z * string) => ((Some k, fst kp), snd kp)) newsn) (k, n) (k, n')).
    { unfold node_done. cbn [fst snd]. destruct (rn_module n).
      - unfold node_pre_transform in E. destruct (pull_vlan_vrfs n) as [d|] eqn:P.
        + destruct (set_vrf_ids (opt_vrfs (rt_vrfs t)) (node_asn t n) d st) as [[[d1 s1] f1]|e] eqn:S1; [|discriminate].
          destruct (set_import_export_rt (opt_vrfs (rt_vrfs t)) (opt_vrfs (rt_vrfs t)) d1 (node_asn t n) d1) as [[d2 f2]|e] eqn:S2; [|discriminate].
          injection E as <- -> He. apply app_eq_nil in He. destruct He as [-> ->].
          apply set_vrf_ids_ok in S1; [|auto]. destruct S1 as [newsn [O1 [G1 F1]]].
          assert (Nd : no_int d). { eapply pull_no_int; eauto. apply (Nn k). left. auto. }
          assert (N1 : no_int d1) by (exact (filled_no_int _ _ _ _ Ng Nd F1)).
          apply set_import_export_rt_ok in S2; auto.
          exists newsn. split; [auto|]. split; [auto|]. split; [auto|]. exists newsn, d1, d2. split; [|auto].
          intros k0 p Hp. apply in_map_iff. exists (k0, p). auto.
        + injection E as <- <-. exists []. split; [auto|]. split; [apply grown2_nil|]. auto.
      - injection E as <- <-. exists []. split; [auto|]. split; [apply grown2_nil|]. auto. }
    destruct A as [newsn [O1 [G1 D1]]].
    apply IH in E2; auto; [|intros n0 nd Hin; apply (Nn n0); right; auto].
    destruct E2 as [news [O2 [G2 F2]]].
    exists (map (fun kp : string * (Z * string) => ((Some k, fst kp), snd kp)) newsn ++ news).
    split; [auto|]. split.
    + rewrite map_app, map_map. cbn [snd]. eapply grown2_trans; eauto.
    + constructor.
      * eapply node_done_mono; [|exact D1]. intros z Hz. apply in_or_app. auto.
      * eapply F2_impl; [|exact F2]. intros a b. apply node_done_mono. intros z Hz. apply in_or_app. auto.
Qed.

(* the three stages of a run without error messages *)
Record vrf_run (t t' : rtopo) (news : list (vslot * (Z * string))) : Prop := {
  run_topo : exists o ns, t' = set_topo t o ns;
  run_ids : NoDup (map (fun x => fst (snd x)) news);
  run_rds : NoDup (map (fun x => snd (snd x)) news);
  run_range : forall s p, In (s, p) news -> 1 <= fst p <= 4095;
  run_fresh_id : rt_vrfs t <> None -> forall s x i o p, vrf_at t s = Some x -> vr_id x = Some i -> In (o, p) news -> fst p <> i;
  run_fresh_rd : rt_vrfs t <> None -> forall s x r r' o p, vrf_at t s = Some x ->
    rd_norm (slot_asn t s) (vr_rd x) (Some (RdStr r')) ->
    vr_rd x = Some r -> In (o, p) news -> snd p <> r';
  run_global : match rt_vrfs t, rt_vrfs t' with
    | None, None => True
    | Some d, Some d' => exists newsg d1 d2,
        (forall k p, In (k, p) newsg -> In ((None, k), p) news)
        /\ Forall2 (vrf_norm (topo_asn t)) d d1
        /\ Forall2 (filled [] newsg) d1 d2
        /\ Forall2 (rts_set (topo_asn t) [] d2 d2) d2 d'
    | _, _ => False
    end;
  run_nodes : exists ns, Forall2 (node_norm t) (rt_nodes t) ns /\ Forall2 (node_done t' news) ns (rt_nodes t')
}.

Lemma node_asn_set : forall t o ns n, node_asn (set_topo t o ns) n = node_asn t n.
Proof. reflexivity. Qed.

Lemma node_norm_key : forall t a b, node_norm t a b -> fst b = fst a.
Proof. intros t a b [H _]. auto. Qed.

Lemma norm_at : forall t o ns s x,
  opt_norm (topo_asn t) (rt_vrfs t) o -> Forall2 (node_norm t) (rt_nodes t) ns -> vrf_at t s = Some x ->
  exists x1, vrf_at (set_topo t o ns) s = Some x1 /\
    vrf_norm (slot_asn t s)
      (snd s, x) (snd s, x1).
Proof.
  intros t o ns [[n|] k] x Ho Hn H; unfold slot_asn; cbn [vrf_at fst snd set_topo rt_vrfs rt_nodes] in *.
  - destruct (dget n (rt_nodes t)) as [nd|] eqn:En; [|discriminate].
    destruct (F2_dget_fwd _ _ _ _ _ _ _ (node_norm_key t) Hn En) as [nd' [En' [_ [o' [Eo Oo]]]]].
    cbn [snd] in Eo, Oo. rewrite En'. subst nd'. cbn [set_rn_vrfs rn_vrfs].
    destruct (rn_vrfs nd) as [d|]; [|discriminate]. destruct o' as [d'|]; [|contradiction]. cbn [opt_norm] in Oo.
    destruct (F2_dget_fwd _ _ _ _ _ _ _ (norm_key _) Oo H) as [x1 [X1 X2]]. eauto.
  - destruct (rt_vrfs t) as [d|]; [|discriminate]. destruct o as [d'|]; [|contradiction]. cbn [opt_norm] in Ho.
    destruct (F2_dget_fwd _ _ _ _ _ _ _ (norm_key _) Ho H) as [x1 [X1 X2]]. eauto.
Qed.

Lemma rd_norm_fun : forall asn o a b, rd_norm asn o a -> rd_norm asn o b -> a = b.
Proof.
  intros asn [[|n|s]|] a b; cbn [rd_norm]; try congruence.
  intros [x [X1 X2]] [y [Y1 Y2]]. congruence.
Qed.

Lemma run_exists : forall t t', vrf_pre_transform t = Ok (t', []) -> exists news, vrf_run t t' news.
Proof.
  intros t t' H. unfold vrf_pre_transform, module_pre_transform in H.
  destruct (normalize_vrf_ids t) as [t1 e] eqn:E0.
  assert (Ee : e = []).
  { destruct (rt_vrfs t1) as [g|].
    - destruct e; auto. discriminate.
    - destruct (nodes_pre_transform t1 (rt_nodes t1) init_vrf_static_ids) as [[[ns st] e2]|e2]; [|discriminate].
      injection H as _ He. apply app_eq_nil in He. tauto. }
  subst e. apply normalize_ids_ok in E0. destruct E0 as [o [ns [-> [Ho Hn]]]].
  cbn [set_topo rt_vrfs rt_nodes] in H.
  assert (Nn : forall n nd, In (n, nd) ns -> no_int (opt_vrfs (rn_vrfs nd))).
  { clear - Hn. induction Hn as [|[a x] [b y] l l' [H1 [o [H2 H3]]] F IH]; intros n nd Hin; [destruct Hin|].
    destruct Hin as [Hin|Hin]; [|apply (IH n); auto]. injection Hin as -> ->. cbn [snd] in *. subst nd. cbn [set_rn_vrfs rn_vrfs].
    destruct (rn_vrfs x) as [d|]; destruct o as [d'|]; cbn [opt_norm opt_vrfs] in *; try contradiction.
    - eapply norm_no_int; eauto.
    - intros k z m Hz. discriminate. }
  destruct o as [g|].
  - pose proof (populate_spec (set_topo t (Some g) ns)) as [P1 [P2 P3]].
    set (st0 := populate_vrf_static_ids (set_topo t (Some g) ns) init_vrf_static_ids) in *.
    change (topo_asn (set_topo t (Some g) ns)) with (topo_asn t) in H.
    destruct (set_vrf_ids [] (topo_asn t) g st0) as [[[g1 st1] e1]|e1] eqn:S1; [|discriminate].
    destruct (set_import_export_rt [] g1 g1 (topo_asn t) g1) as [[g2 e2]|e2] eqn:S2; [|discriminate].
    change (rt_nodes (set_topo (set_topo t (Some g) ns) (Some g2) ns)) with ns in H.
    destruct (nodes_pre_transform (set_topo (set_topo t (Some g) ns) (Some g2) ns) ns st1) as [[[ns' st2] e3]|e3] eqn:S3; [|discriminate].
    injection H as <- He. apply app_eq_nil in He. destruct He as [He ->]. apply app_eq_nil in He. destruct He as [-> ->].
    destruct (rt_vrfs t) as [d|] eqn:Ed; [|contradiction]. cbn [opt_norm] in Ho.
    apply set_vrf_ids_ok in S1; [|auto]. destruct S1 as [newsg [O1 [G1 F1]]].
    assert (N0 : no_int g) by (eapply norm_no_int; eauto).
    assert (Ne : no_int []) by (intros k z m Hz; discriminate).
    assert (N1 : no_int g1) by (exact (filled_no_int _ _ _ _ Ne N0 F1)).
    apply set_import_export_rt_ok in S2; auto.
    assert (N2 : no_int g2) by (exact (rts_no_int _ _ _ _ _ _ N1 S2)).
    apply nodes_ok in S3; auto. destruct S3 as [newsn [O3 [G3 F3]]].
    pose proof (grown2_trans _ _ _ _ _ G1 G3) as [T1 [T2 [T3 [T4 T5]]]].
    exists (map (fun kp : string * (Z * string) => ((None, fst kp), snd kp)) newsg ++ newsn).
    assert (Tin : forall s p, In (s, p) (map (fun kp : string * (Z * string) => ((None, fst kp), snd kp)) newsg ++ newsn) ->
                   In p (map snd newsg ++ map snd newsn)).
    { intros s p Hp. apply in_app_or in Hp. apply in_or_app. destruct Hp as [Hp|Hp].
      - left. apply in_map_iff in Hp. destruct Hp as [[k q] [Hq1 Hq2]]. cbn [fst snd] in Hq1. injection Hq1 as _ <-.
        apply in_map_iff. exists (k, q). auto.
      - right. apply in_map_iff. exists (s, p). auto. }
    assert (Hn' : opt_norm (topo_asn t) (rt_vrfs t) (Some g)) by (rewrite Ed; exact Ho).
    constructor.
    + cbn [set_topo rt_vrfs rt_nodes rt_reserved rt_bgp_as rt_vrf_as]. eexists; eexists; reflexivity.
    + rewrite map_app, map_map. rewrite map_app, !map_map in T4. cbn [snd fst]. exact T4.
    + rewrite map_app, map_map. rewrite map_app, !map_map in T5. cbn [snd fst]. exact T5.
    + intros s p Hp. apply Tin in Hp. apply T3 in Hp. tauto.
    + intros _ s x i o p Hs Hi Hp C. apply Tin in Hp. apply T3 in Hp.
      destruct (norm_at t (Some g) ns s x Hn' Hn Hs) as [x1 [X1 [_ [X2 _]]]]. cbn [snd] in X2.
      destruct Hp as [_ [Hp _]]. apply Hp. rewrite C. apply (P2 s x1 i); congruence.
    + intros _ s x r r' o p Hs Hr Er Hp C. apply Tin in Hp. apply T3 in Hp.
      destruct (norm_at t (Some g) ns s x Hn' Hn Hs) as [x1 [X1 [_ [_ [X2 _]]]]]. cbn [snd] in X2.
      destruct Hp as [_ [_ [_ [Hp _]]]]. apply Hp. rewrite C. apply (P3 s x1 r'); auto.
      eapply rd_norm_fun; eauto.
    + rewrite Ed. cbn [set_topo rt_vrfs]. exists newsg, g, g1. split; [|auto].
      intros k p Hp. apply in_or_app. left. apply in_map_iff. exists (k, p). auto.
    + exists ns. split; [auto|]. cbn [set_topo rt_nodes]. eapply F2_impl; [|exact F3].
      intros a b Hab. eapply node_done_mono; [|exact Hab]. intros z Hz. apply in_or_app. auto.
  - cbn [set_topo rt_vrfs rt_nodes] in H.
    destruct (nodes_pre_transform (set_topo t None ns) ns init_vrf_static_ids) as [[[ns' st2] e3]|e3] eqn:S3; [|discriminate].
    injection H as <- ->. destruct (rt_vrfs t) as [d|] eqn:Ed; [contradiction|].
    assert (O0 : st_ok init_vrf_static_ids).
    { unfold st_ok, counter_inv. cbn. split; auto. exists 1. split; auto. split; [lia|]. intros; lia. }
    assert (Ne : no_int []) by (intros k z m Hz; discriminate).
    apply nodes_ok in S3; auto. destruct S3 as [newsn [O3 [[T1 [T2 [T3 [T4 T5]]]] F3]]].
    exists newsn. constructor.
    + eexists; eexists; reflexivity.
    + rewrite map_map in T4. exact T4.
    + rewrite map_map in T5. exact T5.
    + intros s p Hp. apply (in_map snd) in Hp. apply T3 in Hp. cbn [snd] in Hp. tauto.
    + intros C. congruence.
    + intros C. congruence.
    + rewrite Ed. cbn [set_topo rt_vrfs]. auto.
    + exists ns. split; [auto|]. exact F3.
Qed.

(* ------------------------------------------------------------------ *)
(* Where the identifiers of a VRF come from                             *)

Definition orig (t : rtopo) (s : vslot) : vrf := match vrf_at t s with Some x => x | None => empty_vrf end.

Definition own_source (t : rtopo) (news : list (vslot * (Z * string))) (s : vslot) (x' : vrf) : Prop :=
  (match vr_id (orig t s) with
   | Some i => vr_id x' = Some i
   | None => exists p, In (s, p) news /\ vr_id x' = Some (fst p)
   end)
  /\ exists rd1, rd_norm (slot_asn t s) (vr_rd (orig t s)) rd1 /\
     match rd1 with
     | Some r => vr_rd x' = Some r
     | None => exists p, In (s, p) news /\ vr_rd x' = Some (RdStr (snd p))
     end.

Lemma rd_norm_None : forall asn o, rd_norm asn o None -> o = None.
Proof. intros asn [[|n|s]|]; cbn; intros H; try discriminate; auto. destruct H as [a [_ H]]. discriminate. Qed.

Lemma rd_norm_Some : forall asn o r, rd_norm asn o (Some r) -> o <> None.
Proof. intros asn [[|n|s]|] r; cbn; intros H; try discriminate; auto. Qed.

Lemma own_global : forall t t' news k x', vrf_run t t' news -> vrf_at t' (None, k) = Some x' ->
  vrf_at t (None, k) <> None /\ own_source t news (None, k) x'.
Proof.
  intros t t' news k x' R H. pose proof (run_global _ _ _ R) as G. cbn [vrf_at] in *. unfold own_source, orig. cbn [vrf_at].
  destruct (rt_vrfs t) as [d|]; destruct (rt_vrfs t') as [d'|]; try contradiction; try discriminate.
  destruct G as [newsg [d1 [d2 [Hg [F1 [F2 F3]]]]]].
  destruct (F2_dget _ _ _ _ _ _ _ (rts_set_key _ _ _ _) F3 H) as [x2 [D2 [_ [I3 [R3 _]]]]].
  destruct (F2_dget _ _ _ _ _ _ _ (filled_key _ _) F2 D2) as [x1 [D1 [_ [_ [_ Q]]]]].
  destruct (F2_dget _ _ _ _ _ _ _ (norm_key _) F1 D1) as [x [D [_ [I1 [R1 _]]]]].
  cbn [fst snd dget] in *. rewrite D. split; [discriminate|].
  destruct Q as [[Q1 [Q2 Q3]]|[Q1 [[g [C _]]|[_ [p [Q3 [Q4 Q5]]]]]]]; [| discriminate |].
  - subst x2. rewrite <- I1. split.
    + destruct (vr_id x1); [auto|contradiction].
    + exists (vr_rd x1). split; [exact R1|]. destruct (vr_rd x1); [auto|contradiction].
  - rewrite <- I1. split.
    + destruct (vr_id x1); [congruence|]. exists p. split; [auto|congruence].
    + exists (vr_rd x1). split; [exact R1|]. destruct (vr_rd x1); [congruence|]. exists p. split; [auto|congruence].
Qed.

Lemma global_kept : forall t t' news k, vrf_run t t' news ->
  (vrf_at t (None, k) <> None <-> vrf_at t' (None, k) <> None).
Proof.
  intros t t' news k R. split; intros H.
  - pose proof (run_global _ _ _ R) as G. cbn [vrf_at] in *.
    destruct (rt_vrfs t) as [d|]; destruct (rt_vrfs t') as [d'|]; try contradiction.
    destruct G as [newsg [d1 [d2 [_ [F1 [F2 F3]]]]]]. destruct (dget k d) as [x|] eqn:D; [|congruence].
    destruct (F2_dget_fwd _ _ _ _ _ _ _ (norm_key _) F1 D) as [x1 [D1 _]].
    destruct (F2_dget_fwd _ _ _ _ _ _ _ (filled_key _ _) F2 D1) as [x2 [D2 _]].
    destruct (F2_dget_fwd _ _ _ _ _ _ _ (rts_set_key _ _ _ _) F3 D2) as [x3 [D3 _]]. congruence.
  - destruct (vrf_at t' (None, k)) as [x'|] eqn:E; [|congruence].
    apply (proj1 (own_global _ _ _ _ _ R E)).
Qed.

(* a VRF of a node using the module, and the stages it went through *)
Lemma node_stages : forall t t' news n k x', vrf_run t t' news ->
  active t (Some n, k) -> vrf_at t' (Some n, k) = Some x' ->
  exists newsn d1 x1 x2,
    (forall k p, In (k, p) newsn -> In ((Some n, k), p) news)
    /\ vrf_norm (slot_asn t (Some n, k)) (k, orig t (Some n, k)) (k, x1)
    /\ filled (opt_vrfs (rt_vrfs t')) newsn (k, x1) (k, x2)
    /\ rts_set (slot_asn t (Some n, k)) (opt_vrfs (rt_vrfs t')) (opt_vrfs (rt_vrfs t')) d1 (k, x2) (k, x')
    /\ (forall name, match vrf_at t' (Some n, name), dget name d1 with
                     | Some a, Some b => vr_rd a = vr_rd b
                     | None, None => True
                     | _, _ => False
                     end).
Proof.
  intros t t' news n k x' R A H. destruct A as [nd0 [En0 Em]].
  destruct (run_nodes _ _ _ R) as [ns [F1 F2]]. cbn [vrf_at] in H.
  destruct (dget n (rt_nodes t')) as [nd'|] eqn:En'; [|discriminate].
  destruct (F2_dget _ _ _ _ _ _ _ (node_done_key _ _) F2 En') as [nd1 [En1 [_ P]]]. cbn [fst snd] in P.
  destruct (F2_dget _ _ _ _ _ _ _ (node_norm_key _) F1 En1) as [nd [En [_ [o [Eo Oo]]]]]. cbn [fst snd] in Eo, Oo.
  assert (nd0 = nd) by congruence. subst nd0 nd1. cbn [set_rn_vrfs rn_module] in P. rewrite Em in P.
  assert (As : slot_asn t (Some n, k) = node_asn t nd). { unfold slot_asn. cbn [fst]. rewrite En. auto. }
  destruct (pull_vlan_vrfs (set_rn_vrfs nd o)) as [d|] eqn:Pd.
  - destruct P as [newsn [d1 [d2 [Hn [Q1 [Q2 Q3]]]]]]. subst nd'. cbn [set_rn_vrfs rn_vrfs] in H.
    assert (E : node_asn t' (set_rn_vrfs nd o) = node_asn t nd).
    { destruct (run_topo _ _ _ R) as [o' [ns' ->]]. reflexivity. }
    rewrite E in Q2.
    destruct (F2_dget _ _ _ _ _ _ _ (rts_set_key _ _ _ _) Q2 H) as [x2 [D2 S2]].
    destruct (F2_dget _ _ _ _ _ _ _ (filled_key _ _) Q1 D2) as [x1 [D1 S1]].
    exists newsn, d1, x1, x2. rewrite As.
    split; [auto|]. split; [|split; [auto|split; [auto|]]].
    + pose proof (pull_dget _ _ _ _ Pd D1) as PP. cbn [set_rn_vrfs rn_vrfs] in PP. unfold orig. cbn [vrf_at]. rewrite En.
      destruct (rn_vrfs nd) as [dd|]; destruct o as [dd'|]; cbn [opt_norm] in Oo; try contradiction.
      * destruct PP as [PP|[PP ->]].
        -- destruct (F2_dget _ _ _ _ _ _ _ (norm_key _) Oo PP) as [x [X1 X2]]. rewrite X1. exact X2.
        -- destruct (dget k dd) as [x|] eqn:X.
           ++ destruct (F2_dget_fwd _ _ _ _ _ _ _ (norm_key _) Oo X) as [y [Y _]]. congruence.
           ++ repeat split.
      * subst x1. repeat split.
    + intros name. cbn [vrf_at]. rewrite En'. cbn [set_rn_vrfs rn_vrfs].
      destruct (dget name d2) as [a|] eqn:Da.
      * destruct (F2_dget _ _ _ _ _ _ _ (rts_set_key _ _ _ _) Q2 Da) as [b [Db [_ [_ [Sb _]]]]]. rewrite Db. exact Sb.
      * destruct (dget name d1) as [b|] eqn:Db; auto.
        destruct (F2_dget_fwd _ _ _ _ _ _ _ (rts_set_key _ _ _ _) Q2 Db) as [a [Da' _]]. congruence.
  - subst nd'. exfalso. cbn [set_rn_vrfs rn_vrfs] in H. unfold pull_vlan_vrfs in Pd. cbn [set_rn_vrfs rn_vrfs] in Pd.
    destruct o as [d|]; discriminate.
Qed.

Lemma orig_id : forall t s, vr_id (orig t s) <> None <-> has_id t s.
Proof.
  intros t s. unfold orig, has_id. destruct (vrf_at t s) as [x|].
  - split.
    + intros H. destruct (vr_id x) as [i|] eqn:E; [|congruence]. exists x, i. auto.
    + intros [y [i [E1 E2]]]. congruence.
  - cbn. split; [congruence|]. intros [y [i [C _]]]. discriminate.
Qed.

Lemma orig_rd : forall t s, vr_rd (orig t s) <> None <-> has_rd t s.
Proof.
  intros t s. unfold orig, has_rd. destruct (vrf_at t s) as [x|].
  - split.
    + intros H. destruct (vr_rd x) as [i|] eqn:E; [|congruence]. exists x, i. auto.
    + intros [y [i [E1 E2]]]. congruence.
  - cbn. split; [congruence|]. intros [y [i [C _]]]. discriminate.
Qed.

Lemma rd_norm_iff : forall asn o o', rd_norm asn o o' -> (o = None <-> o' = None).
Proof.
  intros asn [[|n|s]|] o'; cbn [rd_norm]; intros H; try (subst o'; split; congruence).
  destruct H as [a [_ H]]. subst o'. split; congruence.
Qed.

Lemma opt_vrfs_at : forall t k, dget k (opt_vrfs (rt_vrfs t)) = vrf_at t (None, k).
Proof. intros t k. cbn [vrf_at]. destruct (rt_vrfs t); auto. Qed.

Lemma source : forall t t' news s x', vrf_run t t' news -> active t s -> vrf_at t' s = Some x' ->
  (copies t s /\ exists g', vrf_at t' (None, snd s) = Some g' /\ vr_id x' = vr_id g' /\ vr_rd x' = vr_rd g')
  \/ (~ copies t s /\ own_source t news s x').
Proof.
  intros t t' news [[n|] k] x' R A H.
  - destruct (node_stages _ _ _ _ _ _ R A H) as [newsn [d1 [x1 [x2 [Hn [[_ [I1 [R1 _]]] [[_ [_ [_ Q]]] [[_ [I3 [R3 _]]] _]]]]]]]].
    cbn [fst snd] in *. rewrite opt_vrfs_at in Q.
    destruct Q as [[Q1 [Q2 Q3]]|[Q1 [[g [G [Q2 Q3]]]|[G [p [Q2 [Q3 Q4]]]]]]].
    + right. split.
      * intros [_ [_ [_ C]]]. apply C. split.
        -- apply orig_id. congruence.
        -- apply orig_rd. intros E. apply Q2. apply (rd_norm_iff _ _ _ R1). auto.
      * subst x2. unfold own_source. rewrite <- I1. split.
        -- destruct (vr_id x1); [auto|contradiction].
        -- exists (vr_rd x1). split; auto. destruct (vr_rd x1); [auto|contradiction].
    + left. split.
      * split; [discriminate|]. split; [auto|]. cbn [snd]. split.
        -- apply (global_kept _ _ _ k R). congruence.
        -- intros [C1 C2]. apply orig_id in C1. apply orig_rd in C2. rewrite <- I1 in C1.
           destruct Q1 as [Q1|Q1]; [contradiction|]. apply C2. apply (rd_norm_iff _ _ _ R1). auto.
      * exists g. split; [auto|]. split; congruence.
    + right. split.
      * intros [_ [_ [C _]]]. cbn [snd] in C. apply (global_kept _ _ _ k R) in C. contradiction.
      * unfold own_source. rewrite <- I1. split.
        -- destruct (vr_id x1); [congruence|]. exists p. split; [auto|congruence].
        -- exists (vr_rd x1). split; auto. destruct (vr_rd x1); [congruence|]. exists p. split; [auto|congruence].
  - right. split; [intros [C _]; cbn in C; congruence|].
    apply (proj2 (own_global _ _ _ _ _ R H)).
Qed.

Lemma owner_source : forall t t' news s o x', vrf_run t t' news -> active t s -> vrf_at t' s = Some x' ->
  owned_by t s o -> own_source t news o x'.
Proof.
  intros t t' news s o x' R A H O. destruct (source _ _ _ _ _ R A H) as [[C [g [G1 [G2 G3]]]]|[C S]].
  - destruct O as [[_ ->]|[O _]]; [|contradiction].
    destruct (own_global _ _ _ _ _ R G1) as [_ S]. unfold own_source in *. rewrite G2, G3. exact S.
  - destruct O as [[O _]|[_ ->]]; [contradiction|auto].
Qed.

(* VRFs of nodes not using the module *)
Lemma inactive_source : forall t t' news n k nd x', vrf_run t t' news -> dget n (rt_nodes t) = Some nd ->
  rn_module nd = false -> vrf_at t' (Some n, k) = Some x' ->
  vrf_at t (Some n, k) <> None /\ vrf_norm (slot_asn t (Some n, k)) (k, orig t (Some n, k)) (k, x').
Proof.
  intros t t' news n k nd x' R En0 Em H.
  destruct (run_nodes _ _ _ R) as [ns [F1 F2]]. cbn [vrf_at] in H.
  destruct (dget n (rt_nodes t')) as [nd'|] eqn:En'; [|discriminate].
  destruct (F2_dget _ _ _ _ _ _ _ (node_done_key _ _) F2 En') as [nd1 [En1 [_ P]]]. cbn [fst snd] in P.
  destruct (F2_dget _ _ _ _ _ _ _ (node_norm_key _) F1 En1) as [nd2 [En [_ [o [Eo Oo]]]]]. cbn [fst snd] in Eo, Oo.
  assert (nd2 = nd) by congruence. subst nd2 nd1. cbn [set_rn_vrfs rn_module] in P. rewrite Em in P. subst nd'.
  cbn [set_rn_vrfs rn_vrfs] in H. unfold orig, slot_asn. cbn [vrf_at fst]. rewrite En.
  destruct (rn_vrfs nd) as [d|]; destruct o as [d'|]; cbn [opt_norm] in Oo; try contradiction; try discriminate.
  destruct (F2_dget _ _ _ _ _ _ _ (norm_key _) Oo H) as [x [X1 X2]]. rewrite X1. split; [discriminate|exact X2].
Qed.

Lemma node_in_t : forall t t' news n k x', vrf_run t t' news -> vrf_at t' (Some n, k) = Some x' ->
  exists nd, dget n (rt_nodes t) = Some nd.
Proof.
  intros t t' news n k x' R H. destruct (run_nodes _ _ _ R) as [ns [F1 F2]]. cbn [vrf_at] in H.
  destruct (dget n (rt_nodes t')) as [nd'|] eqn:En'; [|discriminate].
  destruct (F2_dget _ _ _ _ _ _ _ (node_done_key _ _) F2 En') as [nd1 [En1 _]].
  destruct (F2_dget _ _ _ _ _ _ _ (node_norm_key _) F1 En1) as [nd2 [En _]]. eauto.
Qed.

(* the source of the id and the RD of any VRF: given by the user or new *)
Lemma any_source : forall t t' news s o x', vrf_run t t' news -> vrf_at t' s = Some x' -> owned_by t s o ->
  own_source t news o x' \/
  (vr_id x' = vr_id (orig t o) /\ rd_norm (slot_asn t o) (vr_rd (orig t o)) (vr_rd x')).
Proof.
  intros t t' news [[n|] k] o x' R H O.
  - destruct (node_in_t _ _ _ _ _ _ R H) as [nd En]. destruct (rn_module nd) eqn:Em.
    + left. eapply owner_source; eauto. exists nd. auto.
    + right. destruct O as [[[_ [[nd1 [E1 E2]] _]] _]|[_ ->]]; [cbn [fst] in *; congruence|].
      destruct (inactive_source _ _ _ _ _ _ _ R En Em H) as [_ [_ [I1 [I2 _]]]]. auto.
  - left. eapply owner_source; eauto. exact I.
Qed.

(* ------------------------------------------------------------------ *)
(* C35                                                                  *)

(* An automatic VRF id is different from the ids of all other VRFs: the static ones when there are
   global VRFs, and the automatic ones in any case. *)
Theorem vrf_ids_unique : forall t t' s1 s2 o1 o2 x1 x2,
  vrf_pre_transform t = Ok (t', []) ->
  vrf_at t' s1 = Some x1 -> vrf_at t' s2 = Some x2 -> active t s1 ->
  owned_by t s1 o1 -> owned_by t s2 o2 -> o1 <> o2 ->
  ~ has_id t o1 -> rt_vrfs t <> None \/ ~ has_id t o2 ->
  exists i, vr_id x1 = Some i /\ vr_id x2 <> Some i.
Proof.
  intros t t' s1 s2 o1 o2 x1 x2 H H1 H2 A O1 O2 D N1 G.
  apply run_exists in H. destruct H as [news R].
  destruct (owner_source _ _ _ _ _ _ R A H1 O1) as [S1 _].
  destruct (vr_id (orig t o1)) as [i|] eqn:E1; [exfalso; apply N1; apply orig_id; congruence|].
  destruct S1 as [p [P1 P2]]. exists (fst p). split; [auto|]. intros C.
  assert (Sd : match vr_id (orig t o2) with Some i => vr_id x2 = Some i
               | None => vr_id x2 = None \/ exists q, In (o2, q) news /\ vr_id x2 = Some (fst q) end).
  { destruct (any_source _ _ _ _ _ _ R H2 O2) as [[S _]|[S _]].
    - destruct (vr_id (orig t o2)); auto.
    - destruct (vr_id (orig t o2)); auto. }
  destruct (vr_id (orig t o2)) as [j|] eqn:E2.
  - assert (HI : has_id t o2) by (apply orig_id; congruence).
    destruct G as [G|G]; [|contradiction].
    destruct HI as [x [i [X1 X2]]]. unfold orig in E2. rewrite X1 in E2.
    apply (run_fresh_id _ _ _ R G o2 x i o1 p X1 X2 P1). congruence.
  - destruct Sd as [Sd|[q [Q1 Q2]]]; [congruence|]. apply D.
    assert (E : (o1, p) = (o2, q)).
    { apply (NoDup_map_inv_in _ _ _ _ (run_ids _ _ _ R)); auto. cbn [snd]. congruence. }
    congruence.
Qed.

(* the same for route distinguishers *)
Theorem vrf_rds_unique : forall t t' s1 s2 o1 o2 x1 x2,
  vrf_pre_transform t = Ok (t', []) ->
  vrf_at t' s1 = Some x1 -> vrf_at t' s2 = Some x2 -> active t s1 ->
  owned_by t s1 o1 -> owned_by t s2 o2 -> o1 <> o2 ->
  ~ has_rd t o1 -> rt_vrfs t <> None \/ ~ has_rd t o2 ->
  exists r, vr_rd x1 = Some (RdStr r) /\ vr_rd x2 <> Some (RdStr r).
Proof.
  intros t t' s1 s2 o1 o2 x1 x2 H H1 H2 A O1 O2 D N1 G.
  apply run_exists in H. destruct H as [news R].
  destruct (owner_source _ _ _ _ _ _ R A H1 O1) as [_ [rd1 [Rn S1]]].
  assert (E1 : vr_rd (orig t o1) = None).
  { destruct (vr_rd (orig t o1)) eqn:E; auto. exfalso. apply N1. apply orig_rd. congruence. }
  rewrite E1 in Rn. cbn in Rn. subst rd1.
  destruct S1 as [p [P1 P2]]. exists (snd p). split; [auto|]. intros C.
  assert (Sd : (exists rd, vr_rd (orig t o2) = Some rd /\ rd_norm (slot_asn t o2) (vr_rd (orig t o2)) (Some (RdStr (snd p))))
               \/ exists q, In (o2, q) news /\ vr_rd x2 = Some (RdStr (snd q))).
  { destruct (any_source _ _ _ _ _ _ R H2 O2) as [[_ [rd2 [Rn S]]]|[_ S]].
    - destruct rd2 as [r|].
      + assert (E : r = RdStr (snd p)) by congruence. subst r. left. pose proof (rd_norm_Some _ _ _ Rn) as Ns.
        destruct (vr_rd (orig t o2)); [eauto|congruence].
      + right. exact S.
    - left. rewrite C in S. pose proof (rd_norm_Some _ _ _ S) as Ns.
      destruct (vr_rd (orig t o2)); [eauto|congruence]. }
  destruct Sd as [[rd [E2 Rn]]|[q [Q1 Q2]]].
  - assert (HI : has_rd t o2) by (apply orig_rd; congruence).
    destruct G as [G|G]; [|contradiction].
    destruct HI as [x [r [X1 X2]]]. unfold orig in E2, Rn. rewrite X1 in E2, Rn.
    apply (run_fresh_rd _ _ _ R G o2 x r (snd p) o1 p X1 Rn X2 P1). auto.
  - apply D. assert (E : (o1, p) = (o2, q)).
    { apply (NoDup_map_inv_in _ _ _ _ (run_rds _ _ _ R)); auto. cbn [snd]. congruence. }
    congruence.
Qed.

(* Every VRF the module works with has an id and an RD; an automatic id is between 1 and 4095. *)
Theorem vrf_ids_assigned : forall t t' s x',
  vrf_pre_transform t = Ok (t', []) -> active t s -> vrf_at t' s = Some x' ->
  vr_rd x' <> None /\ exists i, vr_id x' = Some i /\
    forall o, owned_by t s o -> ~ has_id t o -> 1 <= i <= 4095.
Proof.
  intros t t' s x' H A E. apply run_exists in H. destruct H as [news R].
  assert (O : exists o, owned_by t s o).
  { destruct (source _ _ _ _ _ R A E) as [[C _]|[C _]]; [exists (None, snd s); left|exists s; right]; auto. }
  destruct O as [o O].
  destruct (owner_source _ _ _ _ _ _ R A E O) as [S1 [rd [Rn S2]]]. split.
  - destruct rd; [congruence|]. destruct S2 as [p [_ S2]]. congruence.
  - assert (U : forall o', owned_by t s o' -> o' = o).
    { intros o' O'. destruct O as [[C ->]|[C ->]]; destruct O' as [[C' ->]|[C' ->]]; auto; contradiction. }
    destruct (vr_id (orig t o)) as [i|] eqn:Ei.
    + exists i. split; [auto|]. intros o' O' N. apply U in O'. subst o'. exfalso. apply N. apply orig_id. congruence.
    + destruct S1 as [p [P1 P2]]. exists (fst p). split; [auto|]. intros _ _ _. eapply run_range; eauto.
Qed.

(* No VRF gets lost, and the VRFs used by node VLANs are added to the nodes. *)
Theorem vrfs_present : forall t t',
  vrf_pre_transform t = Ok (t', []) ->
  (forall s, vrf_at t s <> None -> vrf_at t' s <> None)
  /\ (forall n nd k, dget n (rt_nodes t) = Some nd -> rn_module nd = true -> In k (rn_vlan_vrfs nd) ->
        vrf_at t' (Some n, k) <> None).
Proof.
  intros t t' H. apply run_exists in H. destruct H as [news R].
  assert (K : forall n nd k, dget n (rt_nodes t) = Some nd ->
            (vrf_at t (Some n, k) <> None \/ (rn_module nd = true /\ In k (rn_vlan_vrfs nd))) -> vrf_at t' (Some n, k) <> None).
  { intros n nd k En Hk. destruct (run_nodes _ _ _ R) as [ns [F1 F2]]. cbn [vrf_at] in *.
    destruct (F2_dget_fwd _ _ _ _ _ _ _ (node_norm_key _) F1 En) as [nd1 [En1 [_ [o [Eo Oo]]]]]. cbn [snd] in *.
    destruct (F2_dget_fwd _ _ _ _ _ _ _ (node_done_key _ _) F2 En1) as [nd2 [En2 [_ P]]]. cbn [fst snd] in P.
    rewrite En2. rewrite En in Hk.
    assert (Hk' : match o with Some d => dget k d <> None | None => False end \/ (rn_module nd = true /\ In k (rn_vlan_vrfs nd))).
    { destruct Hk as [Hk|Hk]; auto. left. destruct (rn_vrfs nd) as [d|]; [|congruence].
      destruct o as [d'|]; [|contradiction]. destruct (dget k d) as [x|] eqn:D; [|congruence].
      destruct (F2_dget_fwd _ _ _ _ _ _ _ (norm_key _) Oo D) as [y [Y _]]. congruence. }
    subst nd1. cbn [set_rn_vrfs rn_module] in P. destruct (rn_module nd) eqn:Em.
    - assert (Hd : exists d x, pull_vlan_vrfs (set_rn_vrfs nd o) = Some d /\ dget k d = Some x).
      { unfold pull_vlan_vrfs. cbn [set_rn_vrfs rn_vrfs rn_vlan_vrfs]. destruct o as [d|].
        - eexists. destruct (dget k d) as [x|] eqn:D.
          + exists x. split; [reflexivity|]. rewrite pull_fold, D. auto.
          + exists empty_vrf. split; [reflexivity|]. rewrite pull_fold, D. destruct Hk' as [C|[_ Hk']]; [congruence|].
            apply memS_true in Hk'. rewrite Hk'. auto.
        - destruct Hk' as [[]|[_ Hk']]. destruct (rn_vlan_vrfs nd) as [|a l]; [destruct Hk'|].
          eexists. exists empty_vrf. split; [reflexivity|].
          change (dget k (fold_left (fun d k => if dmem k d then d else dset k empty_vrf d) (a :: l) []) = Some empty_vrf).
          rewrite pull_fold. cbn [dget]. apply memS_true in Hk'. rewrite Hk'. auto. }
      destruct Hd as [d [x [Pd D]]]. rewrite Pd in P. destruct P as [newsn [d1 [d2 [_ [Q1 [Q2 Q3]]]]]].
      subst nd2. cbn [set_rn_vrfs rn_vrfs].
      destruct (F2_dget_fwd _ _ _ _ _ _ _ (filled_key _ _) Q1 D) as [y [Y _]].
      destruct (F2_dget_fwd _ _ _ _ _ _ _ (rts_set_key _ _ _ _) Q2 Y) as [z [Z _]]. congruence.
    - subst nd2. cbn [set_rn_vrfs rn_vrfs]. destruct Hk' as [Hk'|[C _]]; [|discriminate]. destruct o; [auto|contradiction]. }
  split.
  - intros [[n|] k] Hs.
    + assert (En : exists nd, dget n (rt_nodes t) = Some nd).
      { cbn [vrf_at] in Hs. destruct (dget n (rt_nodes t)); [eauto|congruence]. }
      destruct En as [nd En]. eapply K; eauto.
    + apply (global_kept _ _ _ k R). auto.
  - intros n nd k En Em Hk. eapply K; eauto.
Qed.

(* A node VRF without both id and RD uses the id and RD of the global VRF with the same name. *)
Theorem vrf_copies_global : forall t t' s x',
  vrf_pre_transform t = Ok (t', []) -> vrf_at t' s = Some x' -> copies t s ->
  exists g', vrf_at t' (None, snd s) = Some g' /\ vr_id x' = vr_id g' /\ vr_rd x' = vr_rd g'.
Proof.
  intros t t' s x' H E C. apply run_exists in H. destruct H as [news R].
  destruct (source _ _ _ _ _ R (proj1 (proj2 C)) E) as [[_ S]|[N _]]; [auto|contradiction].
Qed.

(* ------------------------------------------------------------------ *)
(* C63: ids and RDs given by the user                                   *)

(* They are kept in global VRFs, in VRFs that exist only in a node, and in node VRFs having both. *)
Theorem vrf_static_kept : forall t t' s x x',
  vrf_pre_transform t = Ok (t', []) -> active t s -> ~ copies t s -> vrf_at t s = Some x -> vrf_at t' s = Some x' ->
  (forall i, vr_id x = Some i -> vr_id x' = Some i)
  /\ (forall r, vr_rd x = Some (RdStr r) -> vr_rd x' = Some (RdStr r))
  /\ (forall n, vr_rd x = Some (RdInt n) -> exists a, slot_asn t s = Some a /\ vr_rd x' = Some (RdStr (a ++ ":" ++ zdec n))).
Proof.
  intros t t' s x x' H A C E E'. apply run_exists in H. destruct H as [news R].
  destruct (source _ _ _ _ _ R A E') as [[C' _]|[_ [S1 [rd [Rn S2]]]]]; [contradiction|].
  unfold orig in *. rewrite E in S1, Rn. split; [|split].
  - intros i Ei. rewrite Ei in S1. auto.
  - intros r Er. rewrite Er in Rn. cbn in Rn. subst rd. auto.
  - intros n Er. rewrite Er in Rn. cbn in Rn. destruct Rn as [a [Ea ->]]. exists a. auto.
Qed.

(* ------------------------------------------------------------------ *)
(* C36: route targets                                                   *)

(* the VRF a name in a route target list of s stands for: the global VRF, else the VRF of the node *)
Definition named (t : rtopo) (s : vslot) (name : string) : option vrf :=
  match vrf_at t (None, name) with Some g => Some g | None => vrf_at t (fst s, name) end.

Lemma rts_denote_look : forall asn look look' l l',
  (forall n x, look n = Some x -> exists y, look' n = Some y /\ vr_rd y = vr_rd x) ->
  rts_denote asn look l l' -> rts_denote asn look' l l'.
Proof.
  intros asn look look' l l' HL D. induction D.
  - constructor.
  - constructor; auto.
  - constructor; auto.
  - destruct (HL _ _ H0) as [y [Y1 Y2]]. eapply rts_vrf; eauto. congruence.
  - destruct (HL _ _ H0) as [y [Y1 Y2]]. eapply rts_skip; eauto. congruence.
Qed.

(* what is known about both route target lists *)
Definition rt_done (t t' : rtopo) (s : vslot) (f : vrf -> option (list rtv)) (x' : vrf) : Prop :=
  rt_list_ok (slot_asn t s) (named t' s) (vr_rd x')
    (match fst s with None => None | Some _ => option_map f (vrf_at t' (None, snd s)) end) (f (orig t s)) (f x').

Lemma rt_list_look : forall asn look look' rd p o o',
  (forall n x, look n = Some x -> exists y, look' n = Some y /\ vr_rd y = vr_rd x) ->
  rt_list_ok asn look rd p o o' -> rt_list_ok asn look' rd p o o'.
Proof.
  intros asn look look' rd p [l|] o' HL H; cbn [rt_list_ok] in *; auto.
  destruct H as [l' [-> D]]. exists l'. split; auto. eapply rts_denote_look; eauto.
Qed.

Lemma rt_both : forall t t' news s x', vrf_run t t' news -> active t s -> vrf_at t' s = Some x' ->
  rt_done t t' s vr_import x' /\ rt_done t t' s vr_export x'.
Proof.
  intros t t' news [[n|] k] x' R A H.
  - destruct (node_stages _ _ _ _ _ _ R A H) as [newsn [d1 [x1 [x2 [_ [[_ [_ [_ [M1 M2]]]] [[_ [M3 [M4 _]]] [[_ [_ [R3 [T1 T2]]]] L]]]]]]]].
    unfold rt_done. cbn [fst snd] in *. rewrite opt_vrfs_at in T1, T2. rewrite <- M1, <- M2, <- M3, <- M4, R3.
    assert (HL : forall m x, lookup2 (opt_vrfs (rt_vrfs t')) d1 m = Some x ->
              exists y, named t' (Some n, k) m = Some y /\ vr_rd y = vr_rd x).
    { intros m x E. unfold lookup2 in E. rewrite opt_vrfs_at in E. unfold named. cbn [fst].
      destruct (vrf_at t' (None, m)) as [g|].
      - injection E as ->. eauto.
      - specialize (L m). destruct (vrf_at t' (Some n, m)) as [y|].
        + rewrite E in L. eauto.
        + rewrite E in L. contradiction. }
    split; eapply rt_list_look; eauto.
  - pose proof (run_global _ _ _ R) as G. unfold rt_done, orig. cbn [vrf_at fst snd] in *.
    destruct (rt_vrfs t) as [d|]; destruct (rt_vrfs t') as [d'|] eqn:E'; try contradiction; try discriminate.
    destruct G as [newsg [d1 [d2 [_ [F1 [F2 F3]]]]]].
    destruct (F2_dget _ _ _ _ _ _ _ (rts_set_key _ _ _ _) F3 H) as [x2 [D2 [_ [_ [R3 [T1 T2]]]]]].
    destruct (F2_dget _ _ _ _ _ _ _ (filled_key _ _) F2 D2) as [x1 [D1 [_ [M3 [M4 _]]]]].
    destruct (F2_dget _ _ _ _ _ _ _ (norm_key _) F1 D1) as [x [D [_ [_ [_ [M1 M2]]]]]].
    cbn [fst snd] in *. rewrite D. rewrite <- M1, <- M2, <- M3, <- M4, R3.
    cbn [dget option_map] in T1, T2.
    assert (HL : forall m y, lookup2 d2 d2 m = Some y -> exists z, named t' (None, k) m = Some z /\ vr_rd z = vr_rd y).
    { intros m y E. unfold lookup2 in E. assert (E2 : dget m d2 = Some y) by (destruct (dget m d2); auto).
      destruct (F2_dget_fwd _ _ _ _ _ _ _ (rts_set_key _ _ _ _) F3 E2) as [z [Z [_ [_ [Rz _]]]]]. cbn [snd] in Rz.
      unfold named. cbn [fst vrf_at]. rewrite E', Z. eauto. }
    split; eapply rt_list_look; eauto.
Qed.

(* the base of a VRF: the global VRF with the same name if there is one *)
Definition based_on (t : rtopo) (s b : vslot) : Prop :=
  (vrf_at t (None, snd s) <> None /\ b = (None, snd s)) \/ (vrf_at t (None, snd s) = None /\ b = s).

Definition no_rt (f : vrf -> option (list rtv)) (t : rtopo) (s : vslot) : Prop :=
  forall x, vrf_at t s = Some x -> f x = None.

Lemma no_rt_orig : forall (f : vrf -> option (list rtv)) t s, f empty_vrf = None -> no_rt f t s -> f (orig t s) = None.
Proof. intros f t s He H. unfold orig. destruct (vrf_at t s) eqn:E; auto. Qed.

(* Without route targets in the VRF and in the global VRF with the same name, both lists contain
   just the RD of the VRF (of the global VRF, if there is one). *)
Theorem rt_default : forall t t' s b x' b' r,
  vrf_pre_transform t = Ok (t', []) -> active t s -> based_on t s b ->
  vrf_at t' s = Some x' -> vrf_at t' b = Some b' -> vr_rd b' = Some (RdStr r) ->
  (no_rt vr_import t s -> no_rt vr_import t b -> vr_import x' = Some [RtStr r])
  /\ (no_rt vr_export t s -> no_rt vr_export t b -> vr_export x' = Some [RtStr r]).
Proof.
  intros t t' s b x' b' r H A B Ex Eb Er. apply run_exists in H. destruct H as [news R].
  assert (K : forall f, f empty_vrf = None -> (forall s x, active t s -> vrf_at t' s = Some x -> rt_done t t' s f x) ->
                no_rt f t s -> no_rt f t b -> f x' = Some [RtStr r]).
  { intros f Hf HD Ns Nb. apply (no_rt_orig f) in Ns; auto. apply (no_rt_orig f) in Nb; auto.
    assert (Gl : forall k g', vrf_at t' (None, k) = Some g' -> vr_rd g' = Some (RdStr r) -> f (orig t (None, k)) = None -> f g' = Some [RtStr r]).
    { intros k g' Eg Rg Ng. pose proof (HD (None, k) g' I Eg) as D. unfold rt_done in D. rewrite Ng in D. cbn in D.
      rewrite Rg in D. exact D. }
    destruct B as [[B1 ->]|[B1 ->]].
    - pose proof (Gl (snd s) b' Eb Er Nb) as Gb.
      destruct s as [[n|] k].
      + pose proof (HD _ _ A Ex) as D. unfold rt_done in D. rewrite Ns in D. cbn [rt_list_ok fst snd] in *.
        rewrite Eb in D. cbn [option_map] in D. congruence.
      + cbn [snd] in Eb. congruence.
    - assert (x' = b') by congruence. subst b'.
      pose proof (HD _ _ A Ex) as D. unfold rt_done in D. rewrite Ns in D. cbn [rt_list_ok] in D.
      destruct s as [[n|] k]; cbn [fst snd] in *.
      + destruct (vrf_at t' (None, k)) as [g|] eqn:Eg.
        * exfalso. assert (C : vrf_at t (None, k) <> None) by (apply (global_kept _ _ _ k R); congruence). contradiction.
        * cbn [option_map] in D. rewrite Er in D. exact D.
      + cbn [option_map] in D. rewrite Er in D. exact D. }
  split.
  - apply K; [reflexivity|]. intros s0 x0 A0 E0. apply (rt_both _ _ _ _ _ R A0 E0).
  - apply K; [reflexivity|]. intros s0 x0 A0 E0. apply (rt_both _ _ _ _ _ R A0 E0).
Qed.

(* A node VRF without route targets uses those of the global VRF with the same name. *)
Theorem rt_inherited : forall t t' n k x' g',
  vrf_pre_transform t = Ok (t', []) -> active t (Some n, k) ->
  vrf_at t' (Some n, k) = Some x' -> vrf_at t' (None, k) = Some g' ->
  (no_rt vr_import t (Some n, k) -> vr_import x' = vr_import g')
  /\ (no_rt vr_export t (Some n, k) -> vr_export x' = vr_export g').
Proof.
  intros t t' n k x' g' H A Ex Eg. apply run_exists in H. destruct H as [news R].
  destruct (rt_both _ _ _ _ _ R A Ex) as [D1 D2]. unfold rt_done in *. cbn [fst snd] in *. rewrite Eg in D1, D2.
  split; intros N.
  - apply no_rt_orig in N; [|reflexivity]. rewrite N in D1. exact D1.
  - apply no_rt_orig in N; [|reflexivity]. rewrite N in D2. exact D2.
Qed.

(* Route targets given by the user: strings with a colon are kept, integers are prefixed with the AS
   number and VRF names are replaced by the RD of that VRF, the global one taking precedence. *)
Theorem rt_explicit : forall t t' s x x',
  vrf_pre_transform t = Ok (t', []) -> active t s -> vrf_at t s = Some x -> vrf_at t' s = Some x' ->
  (forall l, vr_import x = Some l -> exists l', vr_import x' = Some l' /\ rts_denote (slot_asn t s) (named t' s) l l')
  /\ (forall l, vr_export x = Some l -> exists l', vr_export x' = Some l' /\ rts_denote (slot_asn t s) (named t' s) l l').
Proof.
  intros t t' s x x' H A E Ex. apply run_exists in H. destruct H as [news R].
  destruct (rt_both _ _ _ _ _ R A Ex) as [D1 D2]. unfold rt_done, orig in *. rewrite E in D1, D2.
  split; intros l El; rewrite El in *; cbn [rt_list_ok] in *; auto.
Qed.

(* Two VRFs based on different VRFs without route targets, one of them with an automatic RD, do not
   exchange routes. *)
Theorem vrfs_isolated : forall t t' s1 s2 b1 b2 x1 x2,
  vrf_pre_transform t = Ok (t', []) -> active t s1 -> active t s2 ->
  based_on t s1 b1 -> based_on t s2 b2 -> b1 <> b2 ->
  vrf_at t' s1 = Some x1 -> vrf_at t' s2 = Some x2 ->
  (forall s, s = s1 \/ s = s2 \/ s = b1 \/ s = b2 -> no_rt vr_import t s /\ no_rt vr_export t s) ->
  ~ has_rd t b1 -> ~ has_rd t b2 \/ (rt_vrfs t <> None /\ ~ exists x, vrf_at t b2 = Some x /\ vr_rd x = Some RdNone) ->
  forall im ex rt, vr_import x1 = Some im -> vr_export x2 = Some ex -> In rt im -> ~ In rt ex.
Proof.
  intros t t' s1 s2 b1 b2 x1 x2 H A1 A2 B1 B2 N E1 E2 NR N1 N2 im ex rt Him Hex.
  assert (H' := H). apply run_exists in H'. destruct H' as [news R].
  assert (Bx : forall s b x, active t s -> based_on t s b -> vrf_at t' s = Some x ->
             exists y, vrf_at t' b = Some y /\ active t b /\ owned_by t b b).
  { intros s b x A B E. destruct B as [[B ->]|[B ->]].
    - apply (global_kept _ _ _ _ R) in B. destruct (vrf_at t' (None, snd s)) as [y|]; [|congruence].
      exists y. split; [auto|]. split; [exact I|]. right. split; auto. intros [C _]. cbn in C. congruence.
    - exists x. split; [auto|]. split; [auto|]. right. split; auto. intros [_ [_ [C _]]]. contradiction. }
  destruct (Bx _ _ _ A1 B1 E1) as [y1 [Y1 [AY1 O1]]]. destruct (Bx _ _ _ A2 B2 E2) as [y2 [Y2 [AY2 O2]]].
  assert (U : exists r, vr_rd y1 = Some (RdStr r) /\ vr_rd y2 <> Some (RdStr r)).
  { eapply (vrf_rds_unique t t' b1 b2); eauto. destruct N2 as [N2|[N2 _]]; auto. }
  destruct U as [r1 [U1 U2]].
  assert (V : exists r2, vr_rd y2 = Some (RdStr r2)).
  { destruct (owner_source _ _ _ _ _ _ R AY2 Y2 O2) as [_ [rd [Rn S]]]. destruct rd as [rd|].
    - destruct rd as [|n|r2]; [| |eauto].
      + exfalso. destruct (vr_rd (orig t b2)) as [[|n|z]|] eqn:Eo; cbn [rd_norm] in Rn; try discriminate.
        * assert (Hb : exists x, vrf_at t b2 = Some x /\ vr_rd x = Some RdNone).
          { unfold orig in Eo. destruct (vrf_at t b2) as [x|]; [eauto|discriminate]. }
          destruct N2 as [N2|[_ N2]]; [|contradiction]. apply N2. destruct Hb as [x [X1 X2]]. exists x, RdNone. auto.
        * destruct Rn as [a [_ Rn]]. discriminate.
      + exfalso. destruct (vr_rd (orig t b2)) as [[|m|z]|] eqn:Eo; cbn [rd_norm] in Rn; try discriminate.
        destruct Rn as [a [_ Rn]]. discriminate.
    - destruct S as [p [_ S]]. eauto. }
  destruct V as [r2 V].
  destruct (rt_default _ _ _ _ _ _ _ H A1 B1 E1 Y1 U1) as [D1 _].
  destruct (rt_default _ _ _ _ _ _ _ H A2 B2 E2 Y2 V) as [_ D2].
  rewrite D1 in Him by (apply NR; auto). rewrite D2 in Hex by (apply NR; auto).
  injection Him as <-. injection Hex as <-. intros [<-|[]] [C|[]]. congruence.
Qed.

(* ------------------------------------------------------------------ *)
(* The lab of tests/topology/input/vrf.yml                              *)

Definition ev := empty_vrf.
Definition rd_only (r : rdv) : vrf := mk_vrf None (Some r) None None.

Definition vrf_lab : rtopo := mk_rtopo ["global"; "management"]%string (Some "65000"%string) None
  (Some [("red", ev); ("blue", ev)]%string)
  [("r1", mk_rnode true None None None ["red"; "blue"]%string);
   ("r2", mk_rnode true (Some "65001") None
      (Some [("green", ev); ("red", rd_only RdNone); ("black", mk_vrf None None (Some [RtStr "65303:3"; RtStr "green"]) None)]) []);
   ("r3", mk_rnode true None None
      (Some [("yellow", rd_only (RdInt 1)); ("orange", mk_vrf None (Some (RdStr "65101:2")) (Some [RtStr "blue"; RtInt 7]) (Some []))]) [])]%string.

Definition dvrf (i : Z) (rd : string) : vrf := mk_vrf (Some i) (Some (RdStr rd)) (Some [RtStr rd]) (Some [RtStr rd]).

Example vrf_lab_result : vrf_pre_transform vrf_lab =
  Ok (mk_rtopo ["global"; "management"] (Some "65000") None
        (Some [("red", dvrf 2 "65000:2"); ("blue", dvrf 3 "65000:3")])
        [("r1", mk_rnode true None None (Some [("red", dvrf 2 "65000:2"); ("blue", dvrf 3 "65000:3")]) ["red"; "blue"]);
         ("r2", mk_rnode true (Some "65001") None
            (Some [("green", dvrf 4 "65001:4"); ("red", dvrf 2 "65000:2");
                   ("black", mk_vrf (Some 5) (Some (RdStr "65001:5")) (Some [RtStr "65303:3"; RtStr "65001:4"]) (Some [RtStr "65001:5"]))]) []);
         ("r3", mk_rnode true None None
            (Some [("yellow", dvrf 6 "65000:1");
                   ("orange", mk_vrf (Some 7) (Some (RdStr "65101:2")) (Some [RtStr "65000:3"; RtStr "65000:7"]) (Some []))]) [])], [])%string.
Proof. vm_compute. reflexivity. Qed.

(* the hypotheses of the theorems are met in this lab *)
Example vrf_lab_slots :
  active vrf_lab (Some "r2", "green")%string /\ ~ copies vrf_lab (Some "r2", "green")%string
  /\ ~ has_rd vrf_lab (Some "r2", "green")%string /\ ~ has_id vrf_lab (Some "r2", "green")%string
  /\ copies vrf_lab (Some "r2", "red")%string /\ copies vrf_lab (Some "r1", "blue")%string
  /\ has_rd vrf_lab (Some "r3", "yellow")%string /\ rt_vrfs vrf_lab <> None
  /\ based_on vrf_lab (Some "r1", "blue")%string (None, "blue")%string.
Proof.
  assert (A : forall n k, n = "r1"%string \/ n = "r2"%string -> active vrf_lab (Some n, k)).
  { intros n k [->| ->]; eexists; split; reflexivity. }
  split; [apply A; auto|]. split; [intros [_ [_ [C _]]]; apply C; reflexivity|].
  split; [intros [x [r [E1 E2]]]; cbn in E1; injection E1 as <-; discriminate|].
  split; [intros [x [r [E1 E2]]]; cbn in E1; injection E1 as <-; discriminate|].
  split.
  { split; [discriminate|]. split; [apply A; auto|]. split; [discriminate|].
    intros [[x [i [E1 E2]]] _]. cbn in E1. injection E1 as <-. discriminate. }
  split.
  { split; [discriminate|]. split; [apply A; auto|]. split; [discriminate|].
    intros [[x [i [E1 E2]]] _]. cbn in E1. discriminate. }
  split; [eexists; eexists; split; reflexivity|]. split; [discriminate|].
  left. split; [discriminate|reflexivity].
Qed.

Example vrf_lab_isolated : forall t', vrf_pre_transform vrf_lab = Ok (t', []) ->
  forall x1 x2 im ex rt,
  vrf_at t' (Some "r1", "blue")%string = Some x1 -> vrf_at t' (Some "r2", "green")%string = Some x2 ->
  vr_import x1 = Some im -> vr_export x2 = Some ex -> In rt im -> ~ In rt ex.
Proof.
  intros t' H x1 x2 im ex rt E1 E2. eapply (vrfs_isolated vrf_lab t' _ _ (None, "blue") (Some "r2", "green"))%string; eauto.
  - eexists; split; reflexivity.
  - eexists; split; reflexivity.
  - left. split; [discriminate|reflexivity].
  - right. split; reflexivity.
  - discriminate.
  - intros s [->|[->|[->| ->]]]; split; intros x Ex; cbn in Ex; try discriminate; injection Ex as <-; reflexivity.
  - intros [x [r [X1 X2]]]. cbn in X1. injection X1 as <-. discriminate.
  - left. intros [x [r [X1 X2]]]. cbn in X1. injection X1 as <-. discriminate.
Qed.

(* Without global VRFs the ids and RDs of node VRFs are not reserved: an automatic VRF of the first
   node gets the id and the RD given to a VRF of the second node. *)
Theorem vrf_statics_not_reserved_refuted : exists t t' x1 x2,
  vrf_pre_transform t = Ok (t', [])
  /\ vrf_at t' (Some "r1", "a")%string = Some x1 /\ vrf_at t' (Some "r2", "b")%string = Some x2
  /\ ~ has_id t (Some "r1", "a")%string /\ ~ has_rd t (Some "r1", "a")%string
  /\ vr_id x1 = vr_id x2 /\ vr_rd x1 = vr_rd x2 /\ vr_import x1 = vr_import x2.
Proof.
  exists (mk_rtopo [] (Some "65000") None None
           [("r1", mk_rnode true None None (Some [("a", ev)]) []);
            ("r2", mk_rnode true None None (Some [("b", mk_vrf (Some 1) (Some (RdStr "65000:1")) None None)]) [])])%string.
  eexists. eexists. eexists. split; [vm_compute; reflexivity|].
  split; [reflexivity|]. split; [reflexivity|].
  split; [intros [x [i [E1 E2]]]; cbn in E1; injection E1 as <-; discriminate|].
  split; [intros [x [i [E1 E2]]]; cbn in E1; injection E1 as <-; discriminate|].
  repeat split.
Qed.

(* A node VRF with an RD but no id: the RD is replaced by the RD of the global VRF. *)
Theorem node_rd_kept_refuted : exists t t' x x',
  vrf_pre_transform t = Ok (t', []) /\ active t (Some "r1", "red")%string
  /\ vrf_at t (Some "r1", "red")%string = Some x /\ vr_rd x = Some (RdStr "65001:99")
  /\ vrf_at t' (Some "r1", "red")%string = Some x' /\ vr_rd x' = Some (RdStr "65000:1").
Proof.
  exists (mk_rtopo [] (Some "65000") None (Some [("red", ev)])
           [("r1", mk_rnode true (Some "65001") None (Some [("red", rd_only (RdStr "65001:99"))]) [])])%string.
  eexists. eexists. eexists. split; [vm_compute; reflexivity|].
  split; [eexists; split; reflexivity|]. repeat split.
Qed.

(* docs/module/vrf.md:171: an empty RD of a node VRF is auto-generated. It is replaced by the global RD
   or left empty. *)
Theorem empty_rd_generated_refuted : exists t t' x1 x1' x2 x2',
  vrf_pre_transform t = Ok (t', [])
  /\ vrf_at t (Some "r1", "red")%string = Some x1 /\ vr_rd x1 = Some RdNone
  /\ vrf_at t' (Some "r1", "red")%string = Some x1' /\ vr_rd x1' = Some (RdStr "65000:1")
  /\ vrf_at t (Some "r1", "local")%string = Some x2 /\ vr_rd x2 = Some RdNone
  /\ vrf_at t' (Some "r1", "local")%string = Some x2' /\ vr_rd x2' = Some RdNone /\ vr_import x2' = Some [RtNone].
Proof.
  exists (mk_rtopo [] (Some "65000") None (Some [("red", ev)])
           [("r1", mk_rnode true (Some "65001") None (Some [("red", rd_only RdNone); ("local", rd_only RdNone)]) [])])%string.
  eexists. eexists. eexists. eexists. eexists. split; [vm_compute; reflexivity|]. repeat split.
Qed.

(* ------------------------------------------------------------------ *)
(* C37: VRF indices                                                     *)

Lemma insert_by_id_perm : forall x l, Permutation (x :: l) (insert_by_id x l).
Proof.
  intros x. induction l as [|y l IH]; cbn [insert_by_id]; auto.
  destruct (snd x <? snd y); auto. rewrite perm_swap. constructor. auto.
Qed.

Lemma sort_fold_perm : forall l acc, Permutation (acc ++ l) (fold_left (fun acc x => insert_by_id x acc) l acc).
Proof.
  induction l as [|x l IH]; intros acc; cbn [fold_left].
  - rewrite app_nil_r. auto.
  - rewrite <- IH. rewrite <- insert_by_id_perm. rewrite <- Permutation_middle. auto.
Qed.

Lemma sort_by_id_perm : forall l, Permutation l (sort_by_id l).
Proof. intros l. apply (sort_fold_perm l []). Qed.

(* a list of VRFs in the order of a stable sort: ids do not decrease, and VRFs with the same id are
   in the order of [l] *)
Inductive sorted_ids : list (string * Z) -> Prop :=
| si_nil : sorted_ids []
| si_cons : forall x l, (forall y, In y l -> snd x <= snd y) -> sorted_ids l -> sorted_ids (x :: l).

Lemma insert_by_id_sorted : forall x l, sorted_ids l -> sorted_ids (insert_by_id x l).
Proof.
  intros x l S. induction S as [|y l Hy S IH]; cbn [insert_by_id].
  - constructor; [intros y []|constructor].
  - destruct (Z.ltb_spec (snd x) (snd y)).
    + constructor; [|constructor; auto]. intros z [<-|Hz]; [lia|]. apply Hy in Hz. lia.
    + constructor; auto. intros z Hz. apply (Permutation_in _ (Permutation_sym (insert_by_id_perm x l))) in Hz.
      destruct Hz as [<-|Hz]; auto.
Qed.

Lemma sort_by_id_sorted : forall l, sorted_ids (sort_by_id l).
Proof.
  intros l. unfold sort_by_id. assert (H : sorted_ids []) by constructor. revert H. generalize (@nil (string * Z)).
  induction l as [|x l IH]; intros acc H; cbn [fold_left]; auto. apply IH. apply insert_by_id_sorted. auto.
Qed.

Lemma insert_same_id : forall i x l, sorted_ids l ->
  filter (fun p => snd p =? i) (insert_by_id x l) = filter (fun p => snd p =? i) l ++ filter (fun p => snd p =? i) [x].
Proof.
  intros i x l S. induction S as [|y l Hy S IH]; cbn [insert_by_id]; auto.
  destruct (Z.ltb_spec (snd x) (snd y)).
  - cbn [filter]. destruct (Z.eqb_spec (snd x) i) as [E|E].
    + assert (F : filter (fun p => snd p =? i) l = []).
      { clear IH S. induction l as [|z l IHl]; auto. cbn [filter].
        pose proof (Hy z (or_introl eq_refl)) as Hz. destruct (Z.eqb_spec (snd z) i); [lia|]. apply IHl. intros w Hw. apply Hy. right. auto. }
      rewrite F. destruct (Z.eqb_spec (snd y) i); [lia|]. auto.
    + rewrite app_nil_r. auto.
  - cbn [filter] in *. rewrite IH. destruct (snd y =? i); auto.
Qed.

Lemma sort_same_id : forall i l, filter (fun p => snd p =? i) (sort_by_id l) = filter (fun p => snd p =? i) l.
Proof.
  intros i l. unfold sort_by_id.
  assert (K : forall l acc, sorted_ids acc -> filter (fun p => snd p =? i) (fold_left (fun acc x => insert_by_id x acc) l acc)
              = filter (fun p => snd p =? i) acc ++ filter (fun p => snd p =? i) l).
  { clear l. induction l as [|x l IH]; intros acc S; cbn [fold_left].
    - rewrite app_nil_r. auto.
    - rewrite IH by (apply insert_by_id_sorted; auto). rewrite insert_same_id by auto. rewrite <- app_assoc.
      f_equal. cbn [filter]. destruct (snd x =? i); auto. }
  apply (K l []). constructor.
Qed.

Lemma number_keys : forall l i, dkeys (number_from i l) = map fst l.
Proof. induction l as [|[k z] l IH]; intros i; cbn; auto. f_equal. apply IH. Qed.

Lemma number_values : forall l i, map snd (number_from i l) = zseq i (length l).
Proof. induction l as [|[k z] l IH]; intros i; cbn; auto. f_equal. apply IH. Qed.

Lemma number_ge : forall l i k z, In (k, z) (number_from i l) -> i <= z.
Proof.
  induction l as [|[k' z'] l IH]; intros i k z H; cbn in H; [destruct H|].
  destruct H as [H|H]; [injection H as <- <-; lia|]. apply IH in H. lia.
Qed.

Lemma number_order : forall l i a b ia ib ja jb, NoDup (map fst l) -> sorted_ids l ->
  In (a, ia) l -> In (b, ib) l -> In (a, ja) (number_from i l) -> In (b, jb) (number_from i l) -> ia < ib -> ja < jb.
Proof.
  induction l as [|[k z] l IH]; intros i a b ia ib ja jb ND S Ha Hb Na Nb L; [destruct Ha|].
  cbn [map fst] in ND. inversion ND as [|? ? Hn Hr]; subst. inversion S as [|? ? Hs S']; subst. cbn [number_from] in *.
  assert (KK : forall x y, In (x, y) l -> In x (map fst l)). { intros x y Hx. apply in_map_iff. exists (x, y). auto. }
  assert (KN : forall x y, In (x, y) (number_from (i + 1) l) -> In x (map fst l)).
  { intros x y Hx. rewrite <- (number_keys l (i + 1)). apply in_map_iff. exists (x, y). auto. }
  destruct Ha as [Ha|Ha].
  - injection Ha as -> ->. destruct Na as [Na|Na]; [|exfalso; eauto]. injection Na as <-.
    destruct Hb as [Hb|Hb]; [injection Hb as -> ->; lia|].
    destruct Nb as [Nb|Nb]; [injection Nb as -> _; exfalso; eauto|]. apply number_ge in Nb. lia.
  - destruct Hb as [Hb|Hb].
    + injection Hb as -> ->. apply Hs in Ha. cbn in Ha. lia.
    + destruct Na as [Na|Na]; [injection Na as -> _; exfalso; eauto|].
      destruct Nb as [Nb|Nb]; [injection Nb as -> _; exfalso; eauto|]. apply (IH (i + 1) a b ia ib ja jb); auto.
Qed.

(* Every VRF of a node gets one index; the indices are 100, 101, ... without gaps and repetitions, in
   the order of the VRF ids, and VRFs with the same id are numbered in the order in which they are
   listed. *)
Theorem vrf_indices_spec : forall l, NoDup (map fst l) ->
  Permutation (dkeys (vrf_indices l)) (map fst l)
  /\ map snd (vrf_indices l) = zseq 100 (length l)
  /\ (forall a b ia ib ja jb, In (a, ia) l -> In (b, ib) l ->
        dget a (vrf_indices l) = Some ja -> dget b (vrf_indices l) = Some jb -> ia < ib -> ja < jb)
  /\ (forall i, map fst (filter (fun p => match dget (fst p) l with Some z => z =? i | None => false end) (vrf_indices l))
                = map fst (filter (fun p => snd p =? i) l)).
Proof.
  intros l ND. unfold vrf_indices. pose proof (sort_by_id_perm l) as P.
  assert (ND' : NoDup (map fst (sort_by_id l))) by (eapply Permutation_NoDup; [apply Permutation_map; exact P|auto]).
  split; [|split; [|split]].
  - rewrite number_keys. apply Permutation_map. apply Permutation_sym. auto.
  - rewrite number_values. rewrite (Permutation_length P). auto.
  - intros a b ia ib ja jb Ha Hb Na Nb L. apply dget_In in Na. apply dget_In in Nb.
    eapply (number_order (sort_by_id l) 100 a b ia ib); eauto using sort_by_id_sorted, Permutation_in.
  - intros i. rewrite <- sort_same_id.
    assert (K : forall m j, (forall k z, In (k, z) m -> dget k l = Some z) ->
      map fst (filter (fun p => match dget (fst p) l with Some z => z =? i | None => false end) (number_from j m))
      = map fst (filter (fun p => snd p =? i) m)).
    { induction m as [|[k z] m IH]; intros j Hm; cbn [number_from filter fst snd]; auto.
      rewrite (Hm k z) by (left; auto). pose proof (IH (j + 1) (fun k z H => Hm k z (or_intror H))) as E.
      destruct (z =? i); cbn [map fst]; [f_equal|]; exact E. }
    apply K. intros k z Hz. apply dget_NoDup; [exact ND|]. eapply Permutation_in; [apply Permutation_sym; exact P|auto].
Qed.

Example vrf_indices_case :
  vrf_indices [("black", 5); ("green", 4); ("red", 2); ("grey", 4)]%string = [("red", 100); ("green", 101); ("grey", 102); ("black", 103)]%string.
Proof. reflexivity. Qed.

Print Assumptions get_next_vrf_id_no_fuel.
Print Assumptions vrf_ids_unique.
Print Assumptions vrf_rds_unique.
Print Assumptions vrf_ids_assigned.
Print Assumptions vrfs_present.
Print Assumptions vrf_copies_global.
Print Assumptions vrf_static_kept.
Print Assumptions rt_default.
Print Assumptions rt_inherited.
Print Assumptions rt_explicit.
Print Assumptions vrfs_isolated.
Print Assumptions vrf_statics_not_reserved_refuted.
Print Assumptions node_rd_kept_refuted.
Print Assumptions empty_rd_generated_refuted.
Print Assumptions vrf_indices_spec.
