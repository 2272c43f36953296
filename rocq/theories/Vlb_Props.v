(* Properties C187-C190: VRF address families, the need for the VRF module, route leaking, VRF loopbacks. *)
From Coq Require Import String Ascii ZArith Lia Bool List.
From Verif Require Import Base Box_Model Box_Props Vlb_Model.
From Verif Require Intf_Model Intf_Props.
Import ListNotations.
Local Open Scope string_scope.
Local Open Scope list_scope.

(* ------------------------------------------------------------------ *)
(* Address families                                                     *)

(* a VRF with a usable RD *)
Definition usable (vrfs : dict pvrf) (x : string) : Prop := exists v, dget x vrfs = Some v /\ pv_rd v = true.

(* an interface in a VRF has an address family *)
Definition has_af (four : bool) (i : pintf) : Prop := (if four then pi_v4 i else pi_v6 i) = true.
Definition in_vrf (l : list pintf) (x : string) (four : bool) : Prop := exists i, In i l /\ pi_vrf i = Some x /\ has_af four i.

(* a key of a dictionary is set to true *)
Definition set_key (P : Prop) (k : string) (d d' : dict val) : Prop := (P -> dget k d' = Some (VBool true)) /\ (~ P -> dget k d' = dget k d).

Definition usableb (vrfs : dict pvrf) (x : string) : bool := match dget x vrfs with Some v => pv_rd v | None => false end.

Lemma usableb_iff : forall vrfs x, usableb vrfs x = true <-> usable vrfs x.
Proof.
  intros vrfs x. unfold usableb, usable. destruct (dget x vrfs) as [v|]; [split; [intros H; exists v; split; [reflexivity|exact H]|intros [w [E H]]; injection E as E; subst w; exact H]|split; [discriminate|intros [v [E _]]; discriminate E]].
Qed.

Lemma set_af_get : forall b y d k, dget k (set_af b y d) = if b && String.eqb k y then Some (VBool true) else dget k d.
Proof.
  intros b y d k. unfold set_af. destruct b; cbn [andb]; [|reflexivity]. destruct (String.eqb_spec k y) as [Q|Q]; [subst k; apply dget_dset_same|apply dget_dset_other; exact Q].
Qed.

Definition on_vrf (x : string) (i : pintf) : bool := match pi_vrf i with Some y => String.eqb x y | None => false end.
Definition on_usable (vrfs : dict pvrf) (i : pintf) : bool := match pi_vrf i with Some y => usableb vrfs y | None => false end.
Definition lookup2 (a b : bool) (ka kb k : string) (d : dict val) : option val :=
  if b && String.eqb k kb then Some (VBool true) else if a && String.eqb k ka then Some (VBool true) else dget k d.

Record af_inv (naf : dict val) (vrfs : dict pvrf) (l : list pintf) (naf' : dict val) (vrfs' : dict pvrf) (errs : list string) : Prop := {
  ai_node : forall k, dget k naf' = lookup2 (existsb (fun i => pi_v4 i && on_usable vrfs i) l) (existsb (fun i => pi_v6 i && on_usable vrfs i) l) "vpnv4" "vpnv6" k naf;
  ai_vrf : forall x v, dget x vrfs = Some v -> exists v', dget x vrfs' = Some v' /\ pv_rd v' = pv_rd v /\ pv_loop v' = pv_loop v /\
     (pv_rd v = false -> v' = v) /\
     (pv_rd v = true -> forall k, dget k (pv_af v') = lookup2 (existsb (fun i => pi_v4 i && on_vrf x i) l) (existsb (fun i => pi_v6 i && on_vrf x i) l) "ipv4" "ipv6" k (pv_af v));
  ai_new : forall x, dget x vrfs = None -> dget x vrfs' = if existsb (on_vrf x) l then Some (mk_pv false [] None) else None;
  ai_err : errs = flat_map (fun i => match pi_vrf i with Some x => if usableb vrfs x then [] else [x] | None => [] end) l
}.

Lemma existsb_snoc : forall {A} (f : A -> bool) l x, existsb f (l ++ [x]) = existsb f l || f x.
Proof. intros A f l x. rewrite existsb_app. cbn [existsb]. rewrite orb_false_r. reflexivity. Qed.

Lemma lookup2_step : forall a b a2 b2 ka kb k d d', ka <> kb -> (forall k, dget k d' = lookup2 a b ka kb k d) ->
  dget k (set_af b2 kb (set_af a2 ka d')) = lookup2 (a || a2) (b || b2) ka kb k d.
Proof.
  intros a b a2 b2 ka kb k d d' N H. rewrite !set_af_get, H. unfold lookup2. destruct (String.eqb_spec k kb) as [Q|Q].
  - subst k. destruct (String.eqb_spec kb ka) as [R|R]; [exfalso; apply N; symmetry; exact R|]. rewrite !andb_false_r, !andb_true_r. destruct b, b2; reflexivity.
  - rewrite !andb_false_r. destruct (String.eqb k ka); destruct a, a2; reflexivity.
Qed.

Lemma af_inv_all : forall naf vrfs l, match vrf_af naf vrfs l with (naf', vrfs', errs) => af_inv naf vrfs l naf' vrfs' errs end.
Proof.
  intros naf vrfs l. unfold vrf_af. induction l as [|i l IH] using rev_ind.
  - cbn [fold_left]. split.
    + intros k. reflexivity.
    + intros x v D. exists v. split; [exact D|]. repeat (split; [reflexivity|]). intros _ k. reflexivity.
    + intros x D. exact D.
    + reflexivity.
  - rewrite fold_left_app. cbn [fold_left]. destruct (fold_left af_step l (naf, vrfs, [])) as [[n1 v1] e1]. destruct IH as [A B C D]. unfold af_step.
    destruct (pi_vrf i) as [x|] eqn:X.
    2:{ assert (U : on_usable vrfs i = false) by (unfold on_usable; rewrite X; reflexivity). assert (O : forall x, on_vrf x i = false) by (intros x; unfold on_vrf; rewrite X; reflexivity). split.
        - intros k. rewrite !existsb_snoc, U, !andb_false_r, !orb_false_r. apply A.
        - intros x v E. destruct (B x v E) as [v' [E1 [E2 [E3 [E4 E5]]]]]. exists v'. repeat (split; [assumption|]). intros T k. rewrite !existsb_snoc, O, !andb_false_r, !orb_false_r. apply E5. exact T.
        - intros x E. rewrite existsb_snoc, O, orb_false_r. apply C. exact E.
        - rewrite flat_map_app. cbn [flat_map]. rewrite X, app_nil_r. cbn [app]. rewrite ?app_nil_r. exact D. }
    assert (OX : forall y, on_vrf y i = String.eqb y x) by (intros y; unfold on_vrf; rewrite X; reflexivity).
    assert (UX : on_usable vrfs i = usableb vrfs x) by (unfold on_usable; rewrite X; reflexivity).
    assert (ER : flat_map (fun j => match pi_vrf j with Some y => if usableb vrfs y then [] else [y] | None => [] end) (l ++ [i]) = e1 ++ (if usableb vrfs x then [] else [x])).
    { rewrite flat_map_app. cbn [flat_map]. rewrite X, app_nil_r, <- D. reflexivity. }
    assert (OTHER : forall y v, y <> x -> dget y vrfs = Some v -> exists v', dget y v1 = Some v' /\ pv_rd v' = pv_rd v /\ pv_loop v' = pv_loop v /\ (pv_rd v = false -> v' = v) /\
      (pv_rd v = true -> forall k, dget k (pv_af v') = lookup2 (existsb (fun j => pi_v4 j && on_vrf y j) (l ++ [i])) (existsb (fun j => pi_v6 j && on_vrf y j) (l ++ [i])) "ipv4" "ipv6" k (pv_af v))).
    { intros y v N E. destruct (B y v E) as [v' [E1 [E2 [E3 [E4 E5]]]]]. exists v'. repeat (split; [assumption|]). intros T k. apply String.eqb_neq in N. rewrite !existsb_snoc, OX, N, !andb_false_r, !orb_false_r. apply E5. exact T. }
    assert (ONEW : forall y, y <> x -> dget y vrfs = None -> dget y v1 = if existsb (on_vrf y) (l ++ [i]) then Some (mk_pv false [] None) else None).
    { intros y N E. apply String.eqb_neq in N. rewrite existsb_snoc, OX, N, orb_false_r. apply C. exact E. }
    destruct (dget x vrfs) as [w|] eqn:W.
    + destruct (B x w W) as [w' [E1 [E2 [E3 [E4 E5]]]]]. rewrite E1. destruct (pv_rd w) eqn:RD; rewrite E2.
      * assert (US : usableb vrfs x = true) by (unfold usableb; rewrite W; exact RD). rewrite US in *. split.
        -- intros k. rewrite !existsb_snoc, UX, !andb_true_r. apply lookup2_step; [discriminate|exact A].
        -- intros y v E. destruct (string_dec y x) as [Q|Q].
           ++ subst y. rewrite W in E. injection E as E. subst v. eexists. split; [apply dget_dset_same|]. cbn [pv_rd pv_loop pv_af]. split; [symmetry; exact RD|]. split; [exact E3|]. split; [intros K; rewrite RD in K; discriminate K|].
              intros _ k. rewrite !existsb_snoc, OX, String.eqb_refl, !andb_true_r. apply lookup2_step; [discriminate|exact (E5 eq_refl)].
           ++ rewrite dget_dset_other by exact Q. apply OTHER; assumption.
        -- intros y E. destruct (string_dec y x) as [Q|Q]; [subst y; rewrite W in E; discriminate E|]. rewrite dget_dset_other by exact Q. apply ONEW; assumption.
        -- rewrite ER, app_nil_r. reflexivity.
      * assert (US : usableb vrfs x = false) by (unfold usableb; rewrite W; exact RD). rewrite US in *. split.
        -- intros k. rewrite !existsb_snoc, UX, !andb_false_r, !orb_false_r. apply A.
        -- intros y v E. destruct (string_dec y x) as [Q|Q]; [|apply OTHER; assumption]. subst y. rewrite W in E. injection E as E. subst v. exists w'. rewrite RD. repeat (split; [assumption|]). discriminate.
        -- intros y E. destruct (string_dec y x) as [Q|Q]; [subst y; rewrite W in E; discriminate E|]. apply ONEW; assumption.
        -- rewrite ER. reflexivity.
    + assert (US : usableb vrfs x = false) by (unfold usableb; rewrite W; reflexivity). rewrite US in *.
      assert (N1 : forall k, dget k n1 = lookup2 (existsb (fun j => pi_v4 j && on_usable vrfs j) (l ++ [i])) (existsb (fun j => pi_v6 j && on_usable vrfs j) (l ++ [i])) "vpnv4" "vpnv6" k naf) by (intros k; rewrite !existsb_snoc, UX, !andb_false_r, !orb_false_r; apply A).
      pose proof (C x W) as CX. destruct (existsb (on_vrf x) l) eqn:O; rewrite CX.
      * cbn [pv_rd]. split; [exact N1| | |rewrite ER; reflexivity].
        -- intros y v E. apply OTHER; [intros Q; subst y; rewrite W in E; discriminate E|exact E].
        -- intros y E. destruct (string_dec y x) as [Q|Q]; [|apply ONEW; assumption]. subst y. rewrite existsb_snoc, O. exact CX.
      * split; [exact N1| | |rewrite ER; reflexivity].
        -- intros y v E. assert (Q : y <> x) by (intros Q; subst y; rewrite W in E; discriminate E). rewrite dget_dset_other by exact Q. apply OTHER; assumption.
        -- intros y E. destruct (string_dec y x) as [Q|Q]; [subst y; rewrite dget_dset_same, existsb_snoc, O, OX, String.eqb_refl; reflexivity|]. rewrite dget_dset_other by exact Q. apply ONEW; assumption.
Qed.

Lemma lookup2_key : forall (P4 P6 : Prop) a b ka kb d d', ka <> kb -> (a = true <-> P4) -> (b = true <-> P6) -> (forall k, dget k d' = lookup2 a b ka kb k d) ->
  set_key P4 ka d d' /\ set_key P6 kb d d' /\ forall k, k <> ka -> k <> kb -> dget k d' = dget k d.
Proof.
  intros P4 P6 a b ka kb d d' N A B H. unfold set_key. split; [|split].
  - rewrite H. unfold lookup2. apply String.eqb_neq in N. rewrite N, String.eqb_refl, andb_false_r, andb_true_r. destruct a; split; intros K; try reflexivity; [exfalso; apply K; apply A; reflexivity|apply A in K; discriminate K].
  - rewrite H. unfold lookup2. rewrite String.eqb_refl, andb_true_r. assert (NE : String.eqb kb ka = false) by (apply String.eqb_neq; intros Q; apply N; symmetry; exact Q). rewrite NE, andb_false_r. destruct b; split; intros K; try reflexivity; [exfalso; apply K; apply B; reflexivity|apply B in K; discriminate K].
  - intros k K1 K2. rewrite H. unfold lookup2. apply String.eqb_neq in K1. apply String.eqb_neq in K2. rewrite K1, K2, !andb_false_r. reflexivity.
Qed.

(* Address families of the node and of its VRFs; VRFs without a usable RD are reported for every interface that uses them. *)
Theorem vrf_af_exact : forall naf vrfs l naf' vrfs' errs, vrf_af naf vrfs l = (naf', vrfs', errs) ->
  (set_key (exists x, usable vrfs x /\ in_vrf l x true) "vpnv4" naf naf' /\ set_key (exists x, usable vrfs x /\ in_vrf l x false) "vpnv6" naf naf' /\
   forall k, k <> "vpnv4" -> k <> "vpnv6" -> dget k naf' = dget k naf) /\
  (forall x v, dget x vrfs = Some v -> exists v', dget x vrfs' = Some v' /\ pv_rd v' = pv_rd v /\ pv_loop v' = pv_loop v /\
     (pv_rd v = false -> v' = v) /\
     (pv_rd v = true -> set_key (in_vrf l x true) "ipv4" (pv_af v) (pv_af v') /\ set_key (in_vrf l x false) "ipv6" (pv_af v) (pv_af v') /\
        forall k, k <> "ipv4" -> k <> "ipv6" -> dget k (pv_af v') = dget k (pv_af v))) /\
  (forall x, dget x vrfs = None -> ((exists i, In i l /\ pi_vrf i = Some x) -> dget x vrfs' = Some (mk_pv false [] None)) /\
     ((forall i, In i l -> pi_vrf i <> Some x) -> dget x vrfs' = None)) /\
  (exists sel : string -> bool, errs = flat_map (fun i => match pi_vrf i with Some x => if sel x then [] else [x] | None => [] end) l /\ forall x, sel x = true <-> usable vrfs x).
Proof.
  intros naf vrfs l naf' vrfs' errs H. pose proof (af_inv_all naf vrfs l) as I. rewrite H in I. destruct I as [A B C D]. split; [|split; [|split]].
  - refine (lookup2_key _ _ _ _ _ _ _ _ _ _ _ A); [discriminate| |].
    + rewrite existsb_exists. split.
      * intros [i [I K]]. apply andb_true_iff in K. destruct K as [K1 K2]. unfold on_usable in K2. destruct (pi_vrf i) as [x|] eqn:X; [|discriminate K2]. exists x. split; [apply usableb_iff; exact K2|]. exists i. split; [exact I|]. split; [exact X|exact K1].
      * intros [x [U [i [I [X K]]]]]. exists i. split; [exact I|]. unfold has_af in K. rewrite K. cbn [andb]. unfold on_usable. rewrite X. apply usableb_iff. exact U.
    + rewrite existsb_exists. split.
      * intros [i [I K]]. apply andb_true_iff in K. destruct K as [K1 K2]. unfold on_usable in K2. destruct (pi_vrf i) as [x|] eqn:X; [|discriminate K2]. exists x. split; [apply usableb_iff; exact K2|]. exists i. split; [exact I|]. split; [exact X|exact K1].
      * intros [x [U [i [I [X K]]]]]. exists i. split; [exact I|]. unfold has_af in K. rewrite K. cbn [andb]. unfold on_usable. rewrite X. apply usableb_iff. exact U.
  - intros x v E. destruct (B x v E) as [v' [E1 [E2 [E3 [E4 E5]]]]]. exists v'. repeat (split; [assumption|]). intros T. specialize (E5 T).
    refine (lookup2_key _ _ _ _ _ _ _ _ _ _ _ E5); [discriminate| |].
    + rewrite existsb_exists. unfold in_vrf, has_af, on_vrf. split.
      * intros [i [I K]]. apply andb_true_iff in K. destruct K as [K1 K2]. destruct (pi_vrf i) as [y|] eqn:Y; [|discriminate K2]. apply String.eqb_eq in K2. subst y. exists i. split; [exact I|]. split; [exact Y|exact K1].
      * intros [i [I [Y K]]]. exists i. split; [exact I|]. rewrite K, Y. apply String.eqb_refl.
    + rewrite existsb_exists. unfold in_vrf, has_af, on_vrf. split.
      * intros [i [I K]]. apply andb_true_iff in K. destruct K as [K1 K2]. destruct (pi_vrf i) as [y|] eqn:Y; [|discriminate K2]. apply String.eqb_eq in K2. subst y. exists i. split; [exact I|]. split; [exact Y|exact K1].
      * intros [i [I [Y K]]]. exists i. split; [exact I|]. rewrite K, Y. apply String.eqb_refl.
  - intros x E. specialize (C x E). destruct (existsb (on_vrf x) l) eqn:O.
    + split; [intros _; exact C|]. intros K. exfalso. apply existsb_exists in O. destruct O as [i [I X]]. unfold on_vrf in X. destruct (pi_vrf i) as [y|] eqn:Y; [|discriminate X]. apply String.eqb_eq in X. subst y. exact (K i I Y).
    + split; [|intros _; exact C]. intros [i [I Y]]. exfalso. assert (T : existsb (on_vrf x) l = true) by (apply existsb_exists; exists i; split; [exact I|unfold on_vrf; rewrite Y; apply String.eqb_refl]). rewrite T in O. discriminate O.
  - exists (usableb vrfs). split; [exact D|]. intros x. apply usableb_iff.
Qed.

(* The VRF module is needed when an interface is in a VRF or there is a VRF loopback. *)
Theorem vrf_unused_exact : forall keep node_loop vrfs l w r, vrf_unused keep node_loop vrfs l = (w, r) ->
  (w = true <-> (forall i, In i l -> pi_vrf i = None) /\ (forall x v, In (x, v) vrfs -> pv_loop v = None /\ forall b, node_loop = Some b -> truthy b = false)) /\
  (r = true <-> w = true /\ keep = false).
Proof.
  intros keep node_loop vrfs l w r H. unfold vrf_unused in H.
  assert (Z0 : forall {A} (f : A -> bool) m, length (filter f m) = 0 <-> forall x, In x m -> f x = false).
  { intros A f m. induction m as [|x m IH]; [split; [intros _ x []|reflexivity]|]. cbn [filter]. destruct (f x) eqn:F.
    - split; [discriminate|]. intros K. rewrite (K x (or_introl eq_refl)) in F. discriminate F.
    - rewrite IH. split; [intros K y [E|E]; [subst y; exact F|exact (K y E)]|intros K y E; apply K; right; exact E]. }
  assert (C : vrf_count node_loop vrfs l = 0 <-> (forall i, In i l -> pi_vrf i = None) /\ (forall x v, In (x, v) vrfs -> pv_loop v = None /\ forall b, node_loop = Some b -> truthy b = false)).
  { unfold vrf_count. rewrite Nat.eq_add_0, !Z0. split.
    - intros [K1 K2]. split.
      + intros i I. specialize (K1 i I). destruct (pi_vrf i); [discriminate K1|reflexivity].
      + intros x v I. specialize (K2 (x, v) I). cbn [snd] in K2. destruct (pv_loop v); [discriminate K2|]. split; [reflexivity|]. intros b E. rewrite E in K2. exact K2.
    - intros [K1 K2]. split.
      + intros i I. rewrite (K1 i I). reflexivity.
      + intros [x v] I. cbn [snd]. destruct (K2 x v I) as [E K]. rewrite E. destruct node_loop as [b|]; [exact (K b eq_refl)|reflexivity]. }
  destruct (Nat.eqb_spec (vrf_count node_loop vrfs l) 0) as [Q|Q]; injection H as H1 H2; subst w r.
  - split; [split; [intros _; apply C; exact Q|reflexivity]|]. rewrite negb_true_iff. split; [intros K; split; [reflexivity|exact K]|intros [_ K]; exact K].
  - split; [split; [discriminate|intros K; exfalso; apply Q; apply C; exact K]|]. split; [discriminate|intros [K _]; discriminate K].
Qed.

(* ------------------------------------------------------------------ *)
(* Route leaking                                                        *)

(* routes are leaked: a list of route targets is neither empty nor the RD *)
Definition leaking (v : kvrf) : Prop := exists l, (l = kv_import v \/ l = kv_export v) /\ l <> [] /\ l <> [kv_rd v].

Lemma leaks_iff : forall v, leaks v = true <-> leaking v.
Proof.
  intros v. unfold leaks, leaking. assert (O : forall l, match l with [] => false | _ => negb (list_eqb l [kv_rd v]) end = true <-> l <> [] /\ l <> [kv_rd v]).
  { intros [|x l]; [split; [discriminate|intros [K _]; exfalso; apply K; reflexivity]|]. unfold list_eqb. destruct (list_eq_dec string_dec (x :: l) [kv_rd v]) as [E|E]; cbn [negb].
    - split; [discriminate|intros [_ K]; contradiction].
    - split; [intros _; split; [discriminate|exact E]|reflexivity]. }
  rewrite orb_true_iff, !O. split.
  - intros [K|K]; [exists (kv_import v)|exists (kv_export v)]; (split; [|exact K]); [left|right]; reflexivity.
  - intros [l [[E|E] K]]; subst l; [left|right]; exact K.
Qed.

Definition has_as (a : option Z) : Prop := exists z, a = Some z /\ z <> 0%Z.

Lemma no_as_iff : forall a, no_as a = false <-> has_as a.
Proof.
  intros [z|]; unfold no_as, has_as; [|split; [discriminate|intros [z [E _]]; discriminate E]]. rewrite Z.eqb_neq. split; [intros H; exists z; split; [reflexivity|exact H]|intros [w [E H]]; injection E as E; subst w; exact H].
Qed.

(* The VRF AS number becomes the BGP AS number of a node with route leaking and no BGP AS number; without both, every VRF with route
   leaking is an error. *)
Theorem leaking_exact : forall bas vas vrfs bas' errs, validate_leaking bas vas vrfs = (bas', errs) ->
  (has_as bas -> bas' = bas /\ errs = []) /\
  (~ has_as bas -> has_as vas -> errs = [] /\ ((exists x v, In (x, v) vrfs /\ leaking v) -> bas' = vas) /\ ((forall x v, In (x, v) vrfs -> ~ leaking v) -> bas' = bas)) /\
  (~ has_as bas -> ~ has_as vas -> bas' = bas /\ exists sel, errs = map fst (filter sel vrfs) /\ forall x v, In (x, v) vrfs -> (sel (x, v) = true <-> leaking v)).
Proof.
  intros bas vas vrfs bas' errs H. unfold validate_leaking in H.
  assert (SKIP : forall l b e, no_as b = false -> fold_left (leak_step vas) l (b, e) = (b, e)).
  { intros l b e N. induction l as [|x l IH]; [reflexivity|]. cbn [fold_left]. unfold leak_step at 2. cbn [fst snd]. rewrite N, andb_false_r. exact IH. }
  split; [|split].
  - intros B. apply no_as_iff in B. rewrite SKIP in H by exact B. injection H as H1 H2. split; symmetry; assumption.
  - intros NB V. apply no_as_iff in V. assert (B : no_as bas = true) by (destruct (no_as bas) eqn:N; [reflexivity|exfalso; apply NB; apply no_as_iff; exact N]). clear NB.
    induction vrfs as [|[x v] l IH]; cbn [fold_left] in H.
    + injection H as H1 H2. subst bas' errs. split; [reflexivity|]. split; [intros [x [v [[] _]]]|reflexivity].
    + unfold leak_step at 2 in H. cbn [fst snd] in H. rewrite B, V, andb_true_r in H. pose proof (leaks_iff v) as LV. destruct (leaks v).
      * rewrite SKIP in H by exact V. injection H as H1 H2. subst bas' errs. split; [reflexivity|]. split; [reflexivity|]. intros K. exfalso. apply (K x v (or_introl eq_refl)). apply LV. reflexivity.
      * destruct (IH H) as [I1 [I2 I3]]. split; [exact I1|]. split.
        -- intros [y [w [[E|E] K]]]; [injection E as E1 E2; subst y w; apply LV in K; discriminate K|]. apply I2. exists y, w. split; assumption.
        -- intros K. apply I3. intros y w E. apply (K y w). right. exact E.
  - intros NB NV. assert (B : no_as bas = true) by (destruct (no_as bas) eqn:N; [reflexivity|exfalso; apply NB; apply no_as_iff; exact N]). assert (V : no_as vas = true) by (destruct (no_as vas) eqn:N; [reflexivity|exfalso; apply NV; apply no_as_iff; exact N]). clear NB NV.
    assert (G : forall l e, fold_left (leak_step vas) l (bas, e) = (bas, e ++ map fst (filter (fun x => leaks (snd x)) l))).
    { intros l. induction l as [|[x v] l IH]; intros e; cbn [fold_left filter map]; [rewrite app_nil_r; reflexivity|]. unfold leak_step at 2. cbn [fst snd]. rewrite B, V, andb_true_r. destruct (leaks v); [|apply IH]. cbn [map fst]. rewrite IH, <- app_assoc. reflexivity. }
    rewrite G in H. injection H as H1 H2. split; [symmetry; exact H1|]. exists (fun x => leaks (snd x)). split; [symmetry; exact H2|]. intros x v _. cbn [snd]. apply leaks_iff.
Qed.

(* ------------------------------------------------------------------ *)
(* VRF loopbacks                                                        *)

Lemma find_none_all : forall {A} (f : A -> bool) l, (forall x, In x l -> f x = false) -> find f l = None.
Proof. intros A f l H. induction l as [|x l IH]; [reflexivity|]. cbn [find]. rewrite (H x (or_introl eq_refl)). apply IH. intros y I. apply H. right. exact I. Qed.

Section Loopbacks.
Variable start : Z.
Variable fmt : Z -> string.
Variables node_loop node_area : option val.
Variable parse : val -> laddr.
Variable pool : nat -> laddr.
Variable ip6 : string -> string.

Let run := vrf_loopbacks start fmt node_loop node_area parse pool ip6.

(* the first value that is not false *)
Definition chosen (a b : option val) (v : val) : Prop := truthy v = true /\ (a = Some v \/ (~ (exists w, a = Some w /\ truthy w = true) /\ b = Some v)).

(* a prefix from the pool is needed *)
Definition from_pool (x : string * lvrf) : Prop := exists b, chosen (v_loop (snd x)) node_loop (VBool b).

(* the prefixes of the loopback of a VRF that follows other VRFs *)
Definition loop_addr (before : dict lvrf) (v : lvrf) (a : laddr) : Prop :=
  a <> (None, None) /\ exists r, chosen (v_loop v) node_loop r /\
    ((exists b, r = VBool b) -> exists sel, a = pool (length (filter sel before)) /\ forall x, In x before -> (sel x = true <-> from_pool x)) /\
    ((forall b, r <> VBool b) -> a = parse r).

(* addresses in host format *)
Definition host (a h : laddr) : Prop := fst h = fst a /\ (snd a = None -> snd h = None) /\ forall p, snd a = Some p -> snd h = Some (ip6 p).

(* the loopback interface of a VRF *)
Definition loop_intf (name : string) (v : lvrf) (h : laddr) (i : lbif) : Prop :=
  f_vrf i = Some name /\ f_type i = Some "loopback" /\ f_name i = fmt (f_index i - 10000)%Z /\ f_parent i = None /\
  (forall x, f_ipv4 i = Some x <-> exists s, fst h = Some s /\ x = VStr s) /\ (forall x, f_ipv6 i = Some x <-> exists s, snd h = Some s /\ x = VStr s) /\
  (forall r, f_area i = Some r <-> chosen (v_area v) node_area r).

Lemma chosen_iff : forall a b v, (or_val a b = Some v /\ truthy v = true) <-> chosen a b v.
Proof.
  intros a b v. unfold or_val, chosen. destruct a as [w|].
  - destruct (truthy w) eqn:T.
    + split; [intros [E K]; split; [exact K|left; exact E]|intros [K [E|[N _]]]; [split; assumption|exfalso; apply N; exists w; split; [reflexivity|exact T]]].
    + split; [intros [E K]; split; [exact K|right; split; [intros [u [E2 T2]]; injection E2 as E2; subst u; rewrite T in T2; discriminate T2|exact E]]|intros [K [E|[_ E]]]; [injection E as E; subst w; rewrite K in T; discriminate T|split; assumption]].
  - split; [intros [E K]; split; [exact K|right; split; [intros [u [E2 _]]; discriminate E2|exact E]]|intros [K [E|[_ E]]]; [discriminate E|split; assumption]].
Qed.

Definition request (v : lvrf) : option val := match or_val (v_loop v) node_loop with Some r => if truthy r then Some r else None | None => None end.

Lemma request_iff : forall v r, request v = Some r <-> chosen (v_loop v) node_loop r.
Proof.
  intros v r. rewrite <- chosen_iff. unfold request. destruct (or_val (v_loop v) node_loop) as [w|].
  - destruct (truthy w) eqn:T; [split; [intros E; injection E as E; subst w; split; [reflexivity|exact T]|intros [E _]; exact E]|]. split; [discriminate|intros [E K]; injection E as E; subst w; rewrite K in T; discriminate T].
  - split; [discriminate|intros [E _]; discriminate E].
Qed.

Definition poolb (x : string * lvrf) : bool := match request (snd x) with Some (VBool _) => true | _ => false end.

Lemma poolb_iff : forall x, poolb x = true <-> from_pool x.
Proof.
  intros x. unfold poolb, from_pool. split.
  - intros H. destruct (request (snd x)) as [[|b|z|s|l|d]|] eqn:R; try discriminate H. exists b. apply request_iff. exact R.
  - intros [b K]. apply request_iff in K. rewrite K. reflexivity.
Qed.

Definition addr_at (k : nat) (v : lvrf) : laddr := match request v with Some (VBool _) => pool k | Some r => parse r | None => (None, None) end.

Lemma loop_addr_iff : forall before v a, loop_addr before v a <-> a <> (None, None) /\ addr_at (length (filter poolb before)) v = a.
Proof.
  intros before v a. unfold loop_addr, addr_at. split.
  - intros [N [r [C [P Q]]]]. split; [exact N|]. apply request_iff in C. rewrite C.
    assert (EQ : forall sel, (forall x, In x before -> (sel x = true <-> from_pool x)) -> filter sel before = filter poolb before).
    { intros sel S. apply filter_ext_in. intros x I. specialize (S x I). rewrite <- poolb_iff in S. destruct (sel x); destruct (poolb x); try reflexivity; [symmetry; apply S; reflexivity|apply S; reflexivity]. }
    destruct r as [|b|z|s|l|d]; try (symmetry; apply Q; intros b; discriminate). destruct (P (ex_intro _ b eq_refl)) as [sel [E S]]. rewrite <- (EQ sel S). symmetry. exact E.
  - intros [N E]. split; [exact N|]. destruct (request v) as [r|] eqn:R; [|exfalso; apply N; symmetry; exact E]. exists r. split; [apply request_iff; exact R|]. split.
    + intros [b B]. subst r. exists poolb. split; [symmetry; exact E|]. intros x _. apply poolb_iff.
    + intros NB. destruct r as [|b|z|s|l|d]; try (symmetry; exact E). exfalso. exact (NB b eq_refl).
Qed.

Definition hosta := host_addr ip6.

Lemma host_iff : forall a h, host a h <-> h = hosta a.
Proof.
  intros [a4 a6] [h4 h6]. unfold host, hosta, host_addr. cbn [fst snd]. split.
  - intros [E [N S]]. subst h4. f_equal. destruct a6 as [p|]; [apply S; reflexivity|apply N; reflexivity].
  - intros E. injection E as E1 E2. split; [exact E1|]. split; [intros K; rewrite K in E2; exact E2|intros p K; rewrite K in E2; exact E2].
Qed.

Definition area_of (v : lvrf) : option val := match or_val (v_area v) node_area with Some r => if truthy r then or_val (v_area v) node_area else None | None => None end.

Definition new_intf (idx : Z) (name : string) (v : lvrf) (h : laddr) : lbif :=
  mk_lb (Some name) (Some "loopback") idx (fmt (idx - 10000)%Z) (text (fst h)) (text (snd h)) None (area_of v).

Lemma text_iff : forall a x, text a = Some x <-> exists s, a = Some s /\ x = VStr s.
Proof.
  intros [s|] x; unfold text; [split; [intros E; injection E as E; exists s; split; [reflexivity|symmetry; exact E]|intros [t [E X]]; injection E as E; subst t x; reflexivity]|split; [discriminate|intros [t [E _]]; discriminate E]].
Qed.

Lemma new_intf_spec : forall idx name v h, loop_intf name v h (new_intf idx name v h).
Proof.
  intros idx name v h. unfold loop_intf, new_intf. cbn [f_vrf f_type f_name f_index f_parent f_ipv4 f_ipv6 f_area]. repeat (split; [reflexivity|]). split; [apply text_iff|]. split; [apply text_iff|].
  intros r. rewrite <- chosen_iff. unfold area_of. destruct (or_val (v_area v) node_area) as [w|] eqn:O.
  - destruct (truthy w) eqn:T; [split; [intros E; injection E as E; subst w; split; [reflexivity|exact T]|intros [E _]; exact E]|split; [discriminate|intros [E K]; injection E as E; subst w; rewrite K in T; discriminate T]].
  - split; [discriminate|intros [E _]; discriminate E].
Qed.

Definition step := loopback_step start fmt node_loop node_area parse pool ip6.

Definition empty (a : laddr) : bool := match a with (None, None) => true | _ => false end.

Lemma empty_iff : forall a, empty a = false <-> a <> (None, None).
Proof. intros [[s|] [t|]]; cbn [empty]; split; intros K; try reflexivity; try discriminate; exfalso; apply K; reflexivity. Qed.

Definition with_lb (v : lvrf) (h : laddr) : lvrf :=
  mk_lv (v_loop v) (v_area v) (set_af (match snd h with Some _ => true | None => false end) "ipv6" (set_af (match fst h with Some _ => true | None => false end) "ipv4" (v_af v))) (v_nets v ++ [h]) (Some h).

Lemma step_eq : forall s x, step s x =
  let a := addr_at (ls_pool s) (snd x) in
  let h := hosta a in
  let r := loop_index start (ls_ifs s) in
  let i := new_intf (fst r) (fst x) (snd x) h in
  mk_ls (if empty a then ls_ifs s else match fst h with Some s4 => map (fix_unnumbered (fst x) (f_name i) (VStr s4)) (ls_ifs s) | None => ls_ifs s end ++ [i])
        (if poolb x then S (ls_pool s) else ls_pool s)
        (match request (snd x) with Some _ => if snd r then S (ls_err s) else ls_err s | None => ls_err s end)
        (ls_vrfs s ++ [if empty a then x else (fst x, with_lb (snd x) h)]).
Proof.
  intros s [name v]. unfold step, loopback_step, poolb, addr_at, request. cbn [fst snd]. destruct (or_val (v_loop v) node_loop) as [lb|]; [|reflexivity].
  destruct (truthy lb) eqn:T; [|reflexivity]. destruct (loop_index start (ls_ifs s)) as [idx bad]. cbn [fst snd].
  destruct lb as [|b|z|t|l|d].
  - destruct (parse VNull) as [[s4|] [s6|]]; reflexivity.
  - destruct (pool (ls_pool s)) as [[s4|] [s6|]]; reflexivity.
  - destruct (parse (VInt z)) as [[s4|] [s6|]]; reflexivity.
  - destruct (parse (VStr t)) as [[s4|] [s6|]]; reflexivity.
  - destruct (parse (VList l)) as [[s4|] [s6|]]; reflexivity.
  - destruct (parse (VDict d)) as [[s4|] [s6|]]; reflexivity.
Qed.

(* an interface after its parent was set *)
Definition reparent (new : list lbif) (i : lbif) : lbif :=
  match f_vrf i, f_ipv4 i with
  | Some x, Some (VBool true) =>
      match find (fun j => match f_vrf j, f_ipv4 j with Some y, Some _ => String.eqb x y | _, _ => false end) new with
      | Some j => mk_lb (f_vrf i) (f_type i) (f_index i) (f_name i) (f_ipv4 i) (f_ipv6 i) (match f_ipv4 j with Some a => Some (f_name j, a) | None => f_parent i end) (f_area i)
      | None => i
      end
  | _, _ => i
  end.

(* a VRF and its loopback interface *)
Definition made (vrfs : dict lvrf) (k : nat) (i : lbif) : Prop :=
  exists name v a h, nth_error vrfs k = Some (name, v) /\ loop_addr (firstn k vrfs) v a /\ host a h /\ loop_intf name v h i.

(* indices of loopbacks; the lowest unused index *)
Definition loop_idx (l : list lbif) : list Z := map f_index (filter is_loop l).
Definition lowest (used : list Z) (x : Z) : Prop := (start <= x < start + 1000)%Z /\ ~ In x used /\ forall y, (start <= y < x)%Z -> In y used.

Record lb_inv (ifs : list lbif) (vrfs : dict lvrf) (s : lbstate) (new : list lbif) (pos : list nat) : Prop := {
  li_ifs : ls_ifs s = map (reparent new) ifs ++ new;
  li_pool : ls_pool s = length (filter poolb vrfs);
  li_len : length (ls_vrfs s) = length vrfs;
  li_vrf : forall k name v, nth_error vrfs k = Some (name, v) -> nth_error (ls_vrfs s) k =
     Some (let a := addr_at (length (filter poolb (firstn k vrfs))) v in if empty a then (name, v) else (name, with_lb v (hosta a)));
  li_new : Forall2 (made vrfs) pos new;
  li_pos : forall k, In k pos <-> exists name v a, nth_error vrfs k = Some (name, v) /\ loop_addr (firstn k vrfs) v a;
  li_inc : forall m n a b, nth_error pos m = Some a -> nth_error pos n = Some b -> m < n -> a < b;
  li_uniq : NoDup (map f_vrf new);
  li_idx : ls_err s = 0 -> forall m i, nth_error new m = Some i -> lowest (loop_idx (ifs ++ firstn m new)) (f_index i);
  li_full : ls_err s <> 0 -> forall y, (start <= y < start + 1000)%Z -> In y (loop_idx (ls_ifs s))
}.

Lemma fix_keeps : forall x n a i, f_vrf (fix_unnumbered x n a i) = f_vrf i /\ f_type (fix_unnumbered x n a i) = f_type i /\ f_index (fix_unnumbered x n a i) = f_index i /\ f_name (fix_unnumbered x n a i) = f_name i /\
  f_ipv4 (fix_unnumbered x n a i) = f_ipv4 i /\ f_ipv6 (fix_unnumbered x n a i) = f_ipv6 i /\ f_area (fix_unnumbered x n a i) = f_area i.
Proof.
  intros x n a i. unfold fix_unnumbered. destruct (f_vrf i) as [y|] eqn:V; [|repeat split; try reflexivity; exact V]. destruct (f_ipv4 i) as [w|] eqn:W; [|repeat split; assumption].
  destruct w as [|[|]|z|s|l|d]; try (repeat split; assumption). destruct (String.eqb y x); repeat split; assumption.
Qed.

Lemma reparent_keeps : forall new i, f_vrf (reparent new i) = f_vrf i /\ f_type (reparent new i) = f_type i /\ f_index (reparent new i) = f_index i /\ f_name (reparent new i) = f_name i /\
  f_ipv4 (reparent new i) = f_ipv4 i /\ f_ipv6 (reparent new i) = f_ipv6 i /\ f_area (reparent new i) = f_area i.
Proof.
  intros new i. unfold reparent. destruct (f_vrf i) as [y|] eqn:V; [|repeat split; try reflexivity; exact V]. destruct (f_ipv4 i) as [w|] eqn:W; [|repeat split; assumption].
  destruct w as [|[|]|z|s|l|d]; try (repeat split; assumption). destruct (find _ new); repeat split; assumption.
Qed.

Lemma loop_idx_map : forall (f : lbif -> lbif) l, (forall i, f_type (f i) = f_type i /\ f_index (f i) = f_index i) -> loop_idx (map f l) = loop_idx l.
Proof.
  intros f l H. unfold loop_idx. induction l as [|i l IH]; [reflexivity|]. cbn [map filter]. destruct (H i) as [H1 H2]. assert (E : is_loop (f i) = is_loop i) by (unfold is_loop; rewrite H1; reflexivity). rewrite E. destruct (is_loop i); [|exact IH]. cbn [map]. rewrite H2, IH. reflexivity.
Qed.

Lemma made_app : forall vrfs x k i, made vrfs k i -> made (vrfs ++ [x]) k i.
Proof.
  intros vrfs x k i [name [v [a [h [N [A [H L]]]]]]]. assert (LT : k < length vrfs) by (apply nth_error_Some; rewrite N; discriminate). exists name, v, a, h. split; [rewrite nth_error_app1 by exact LT; exact N|]. split; [|split; assumption].
  rewrite firstn_app. replace (k - length vrfs) with 0 by lia. cbn [firstn]. rewrite app_nil_r. exact A.
Qed.

Lemma reparent_other : forall new j i, f_vrf i <> f_vrf j \/ f_ipv4 j = None -> reparent (new ++ [j]) i = reparent new i.
Proof.
  intros new j i H. unfold reparent. destruct (f_vrf i) as [x|]; [|reflexivity]. destruct (f_ipv4 i) as [[|[|]|z|s|l|d]|]; try reflexivity.
  assert (E : forall P l, (P j = false) -> find P (l ++ [j]) = find P l).
  { intros P l F. induction l as [|y l IH]; cbn [find app]; [rewrite F; reflexivity|]. destruct (P y); [reflexivity|exact IH]. }
  rewrite E; [reflexivity|]. destruct (f_vrf j) as [y|]; [|reflexivity]. destruct (f_ipv4 j) as [w|]; [|reflexivity]. destruct H as [H|H]; [|discriminate H]. apply String.eqb_neq. intros Q. apply H. subst y. reflexivity.
Qed.

Lemma reparent_this : forall new j i name a, f_vrf j = Some name -> f_ipv4 j = Some a -> (forall y, In y new -> f_vrf y <> Some name) -> fix_unnumbered name (f_name j) a (reparent new i) = reparent (new ++ [j]) i.
Proof.
  intros new j i name a VJ AJ NI. destruct (f_vrf i) as [x|] eqn:VI; [|unfold reparent, fix_unnumbered; rewrite VI, VI; reflexivity].
  destruct (string_dec x name) as [Q|Q].
  - subst x. assert (F : find (fun y => match f_vrf y, f_ipv4 y with Some z, Some _ => String.eqb name z | _, _ => false end) new = None).
    { apply find_none_all. intros y I. destruct (f_vrf y) as [z|] eqn:Z; [|reflexivity]. destruct (f_ipv4 y); [|reflexivity]. apply String.eqb_neq. intros K. subst z. exact (NI y I Z). }
    unfold reparent. rewrite VI. destruct (f_ipv4 i) as [w|] eqn:W; [|unfold fix_unnumbered; rewrite VI, W; reflexivity].
    destruct w as [|[|]|z|s|l|d]; try (unfold fix_unnumbered; rewrite VI, W; reflexivity). rewrite F. unfold fix_unnumbered. rewrite VI, W, String.eqb_refl.
    assert (FJ : find (fun y => match f_vrf y, f_ipv4 y with Some z, Some _ => String.eqb name z | _, _ => false end) (new ++ [j]) = Some j).
    { clear NI. induction new as [|y new IH]; cbn [find app] in *; [rewrite VJ, AJ, String.eqb_refl; reflexivity|]. destruct (match f_vrf y with Some z => match f_ipv4 y with Some _ => String.eqb name z | None => false end | None => false end); [discriminate F|exact (IH F)]. }
    rewrite FJ, AJ. reflexivity.
  - rewrite reparent_other by (left; rewrite VI, VJ; intros K; injection K as K; contradiction). destruct (reparent_keeps new i) as [K1 [_ [_ [_ [K5 _]]]]]. unfold fix_unnumbered. rewrite K1, VI. destruct (f_ipv4 (reparent new i)) as [[|[|]|z|s|l|d]|]; try reflexivity. apply String.eqb_neq in Q. rewrite Q. reflexivity.
Qed.

Lemma loop_idx_app : forall l m, loop_idx (l ++ m) = loop_idx l ++ loop_idx m.
Proof. intros l m. unfold loop_idx. rewrite filter_app, map_app. reflexivity. Qed.

Lemma loop_index_spec : forall l x bad, loop_index start l = (x, bad) -> (bad = false -> lowest (loop_idx l) x) /\ (bad = true -> forall y, (start <= y < start + 1000)%Z -> In y (loop_idx l)).
Proof.
  intros l x bad H. unfold loop_index in H. destruct (Intf_Model.ifindex_loop (Z.to_nat 1000) start (map f_index (filter is_loop l))) as [i|] eqn:E.
  - injection H as H1 H2. subst i bad. split; [|discriminate]. intros _. apply Intf_Props.loop_some in E. rewrite Z2Nat.id in E by lia. destruct E as [E1 [E2 E3]]. split; [exact E1|split; [exact E2|exact E3]].
  - injection H as H1 H2. subst bad. split; [discriminate|]. intros _ y Y. apply (proj1 (Intf_Props.loop_none _ _ _) E). rewrite Z2Nat.id by lia. exact Y.
Qed.

Lemma map_reparent_nil : forall ifs, map (reparent []) ifs = ifs.
Proof.
  intros ifs. rewrite <- (map_id ifs) at 2. apply map_ext. intros i. unfold reparent. destruct (f_vrf i); [|reflexivity]. destruct (f_ipv4 i) as [[|[|]|z|t|l|d]|]; reflexivity.
Qed.

Lemma made_vrf : forall vrfs k i, made vrfs k i -> exists name, f_vrf i = Some name /\ In name (dkeys vrfs) /\ forall a, f_ipv4 i = Some a -> exists t, a = VStr t.
Proof.
  intros vrfs k i [name [v [a [h [N [_ [_ L]]]]]]]. destruct L as [L1 [_ [_ [_ [L5 _]]]]]. exists name. split; [exact L1|]. split; [apply nth_error_In in N; unfold dkeys; apply (in_map fst) in N; exact N|]. intros w W. apply L5 in W. destruct W as [t [_ T]]. exists t. exact T.
Qed.

Lemma Forall2_In_r : forall {A B} (R : A -> B -> Prop) l m y, Forall2 R l m -> In y m -> exists x, In x l /\ R x y.
Proof.
  intros A B R l m y F. induction F as [|x z l m H F IH]; intros I; [destruct I|]. destruct I as [I|I]; [subst z; exists x; split; [left; reflexivity|exact H]|]. destruct (IH I) as [w [W1 W2]]. exists w. split; [right; exact W1|exact W2].
Qed.

Lemma fix_string : forall n f a i t, f_ipv4 i = Some (VStr t) \/ f_ipv4 i = None -> fix_unnumbered n f a i = i.
Proof. intros n f a i t H. unfold fix_unnumbered. destruct (f_vrf i); [|reflexivity]. destruct H as [H|H]; rewrite H; reflexivity. Qed.

Lemma hosta_v4 : forall a, fst (hosta a) = fst a.
Proof. intros a. reflexivity. Qed.

Lemma new_loop : forall idx name v h, loop_idx [new_intf idx name v h] = [idx].
Proof. reflexivity. Qed.

Lemma lb_inv_all : forall ifs vrfs, NoDup (dkeys vrfs) -> exists new pos, lb_inv ifs vrfs (run ifs vrfs) new pos.
Proof.
  intros ifs vrfs. unfold run, vrf_loopbacks. induction vrfs as [|x vrfs IH] using rev_ind; intros ND.
  - exists [], []. cbn [fold_left]. split; cbn [ls_ifs ls_pool ls_vrfs ls_err].
    + rewrite map_reparent_nil, app_nil_r. reflexivity.
    + reflexivity.
    + reflexivity.
    + intros k name v E. destruct k; discriminate E.
    + constructor.
    + intros k. split; [intros []|intros [name [v [a [E _]]]]; destruct k; discriminate E].
    + intros m n a b E. destruct m; discriminate E.
    + constructor.
    + intros _ m i E. destruct m; discriminate E.
    + intros K. exfalso. apply K. reflexivity.
  - assert (ND0 : NoDup (dkeys vrfs) /\ ~ In (fst x) (dkeys vrfs)).
    { unfold dkeys in ND |- *. rewrite map_app in ND. cbn [map] in ND. split; [|apply NoDup_remove_2 in ND; rewrite app_nil_r in ND; exact ND]. apply NoDup_remove_1 in ND. rewrite app_nil_r in ND. exact ND. }
    destruct ND0 as [ND0 NX]. destruct (IH ND0) as [new [pos I]]. clear IH. rewrite fold_left_app. cbn [fold_left].
    set (s := fold_left (loopback_step start fmt node_loop node_area parse pool ip6) vrfs (mk_ls ifs 0 0 [])) in *. clearbody s.
    change (loopback_step start fmt node_loop node_area parse pool ip6 s x) with (step s x). rewrite step_eq.
    destruct I as [I1 I2 I3 I4 I5 I6 I7 I8 I9 I10]. destruct x as [name v]. cbn [fst snd] in *.
    destruct (loop_index start (ls_ifs s)) as [idx bad] eqn:LI. cbn [fst snd].
    pose proof (loop_index_spec _ _ _ LI) as [LI1 LI2].
    assert (POOL : (if poolb (name, v) then S (ls_pool s) else ls_pool s) = length (filter poolb (vrfs ++ [(name, v)]))).
    { rewrite filter_app, app_length, <- I2. cbn [filter]. destruct (poolb (name, v)); cbn [length]; lia. }
    assert (F1 : forall k, k <= length vrfs -> firstn k (vrfs ++ [(name, v)]) = firstn k vrfs).
    { intros k K. rewrite firstn_app. replace (k - length vrfs) with 0 by lia. cbn [firstn]. apply app_nil_r. }
    assert (VRFS : forall k n w, nth_error (vrfs ++ [(name, v)]) k = Some (n, w) ->
       nth_error (ls_vrfs s ++ [if empty (addr_at (ls_pool s) v) then (name, v) else (name, with_lb v (hosta (addr_at (ls_pool s) v)))]) k =
       Some (let a := addr_at (length (filter poolb (firstn k (vrfs ++ [(name, v)])))) w in if empty a then (n, w) else (n, with_lb w (hosta a)))).
    { intros k n w E. assert (K : k < length (vrfs ++ [(name, v)])) by (apply nth_error_Some; rewrite E; discriminate). rewrite app_length in K. cbn [length] in K. rewrite F1 by lia.
      destruct (Nat.eq_dec k (length vrfs)) as [Q|Q].
      - subst k. rewrite nth_error_app2 in E by lia. rewrite Nat.sub_diag in E. cbn [nth_error] in E. injection E as E1 E2. subst n w. rewrite nth_error_app2 by lia. rewrite I3, Nat.sub_diag. cbn [nth_error]. rewrite firstn_all, <- I2. reflexivity.
      - rewrite nth_error_app1 in E by lia. rewrite nth_error_app1 by lia. apply I4. exact E. }
    assert (LEN : length (ls_vrfs s ++ [if empty (addr_at (ls_pool s) v) then (name, v) else (name, with_lb v (hosta (addr_at (ls_pool s) v)))]) = length (vrfs ++ [(name, v)])) by (rewrite !app_length, I3; reflexivity).
    assert (POS : forall k, k < length vrfs -> (In k pos <-> exists n w a, nth_error (vrfs ++ [(name, v)]) k = Some (n, w) /\ loop_addr (firstn k (vrfs ++ [(name, v)])) w a)).
    { intros k K. rewrite F1 by lia. rewrite nth_error_app1 by exact K. apply I6. }
    assert (PLT : forall k, In k pos -> k < length vrfs).
    { intros k P. apply I6 in P. destruct P as [n [w [a [E _]]]]. apply nth_error_Some. rewrite E. discriminate. }
    assert (MADE : Forall2 (made (vrfs ++ [(name, v)])) pos new).
    { clear -I5. induction I5 as [|k i p n H F IHF]; constructor; [apply made_app; exact H|exact IHF]. }
    assert (LAST : forall a, loop_addr (firstn (length vrfs) (vrfs ++ [(name, v)])) v a <-> a <> (None, None) /\ addr_at (ls_pool s) v = a).
    { intros a. rewrite F1 by lia. rewrite firstn_all, loop_addr_iff, <- I2. reflexivity. }
    assert (NTH : nth_error (vrfs ++ [(name, v)]) (length vrfs) = Some (name, v)) by (rewrite nth_error_app2 by lia; rewrite Nat.sub_diag; reflexivity).
    assert (OVER : forall k n w, nth_error (vrfs ++ [(name, v)]) k = Some (n, w) -> k < length vrfs \/ k = length vrfs /\ n = name /\ w = v).
    { intros k n w E. assert (K : k < length (vrfs ++ [(name, v)])) by (apply nth_error_Some; rewrite E; discriminate). rewrite app_length in K. cbn [length] in K. destruct (Nat.eq_dec k (length vrfs)) as [Q|Q]; [right|left; lia]. subst k. rewrite NTH in E. injection E as E1 E2. subst n w. repeat split. }
    assert (IDXALL : forall l, loop_idx (map (reparent new) ifs ++ l) = loop_idx (ifs ++ l)).
    { intros l. rewrite !loop_idx_app. f_equal. apply loop_idx_map. intros i. destruct (reparent_keeps new i) as [_ [K2 [K3 _]]]. split; assumption. }
    destruct (empty (addr_at (ls_pool s) v)) eqn:EM.
    + exists new, pos. split; cbn [ls_ifs ls_pool ls_vrfs ls_err].
      * exact I1.
      * exact POOL.
      * exact LEN.
      * exact VRFS.
      * exact MADE.
      * intros k. split.
        -- intros P. apply POS; [exact (PLT k P)|exact P].
        -- intros [n [w [a [E A]]]]. destruct (OVER k n w E) as [K|[K [K1 K2]]]; [apply POS; [exact K|exists n, w, a; split; assumption]|]. subst k n w. apply LAST in A. destruct A as [A1 A2]. apply empty_iff in A1. rewrite A2 in EM. rewrite A1 in EM. discriminate EM.
      * exact I7.
      * exact I8.
      * intros Z. apply I9. destruct (request v); [destruct bad; [discriminate Z|exact Z]|exact Z].
      * intros Z. destruct (request v); [destruct bad; [exact (LI2 eq_refl)|exact (I10 Z)]|exact (I10 Z)].
    + assert (A : addr_at (ls_pool s) v <> (None, None)) by (apply empty_iff; exact EM).
      set (a := addr_at (ls_pool s) v) in *. set (i := new_intf idx name v (hosta a)).
      assert (NEWI : forall y, In y new -> f_vrf y <> Some name).
      { intros y Y K. destruct (Forall2_In_r _ _ _ _ I5 Y) as [k [_ M]]. destruct (made_vrf _ _ _ M) as [n [N1 [N2 _]]]. rewrite N1 in K. injection K as K. subst n. contradiction. }
      assert (RQ : exists r, request v = Some r).
      { destruct (request v) as [r|] eqn:R; [exists r; reflexivity|]. exfalso. apply A. unfold a, addr_at. rewrite R. reflexivity. }
      destruct RQ as [r R]. rewrite R.
      assert (IFS : match fst (hosta a) with Some s4 => map (fix_unnumbered name (f_name i) (VStr s4)) (ls_ifs s) | None => ls_ifs s end = map (reparent (new ++ [i])) ifs ++ new).
      { rewrite I1. destruct (fst (hosta a)) as [s4|] eqn:S4.
        - rewrite map_app, map_map. f_equal.
          + apply map_ext. intros j. apply reparent_this; [reflexivity|unfold i, new_intf; cbn [f_ipv4]; rewrite S4; reflexivity|exact NEWI].
          + rewrite <- (map_id new) at 2. apply map_ext_in. intros y Y. destruct (Forall2_In_r _ _ _ _ I5 Y) as [k [_ M]]. destruct (made_vrf _ _ _ M) as [n [_ [_ N3]]]. destruct (f_ipv4 y) as [w|] eqn:W.
            * destruct (N3 w eq_refl) as [t T]. subst w. apply (fix_string _ _ _ _ t). left. exact W.
            * apply (fix_string _ _ _ _ ""). right. exact W.
        - f_equal. apply map_ext. intros j. symmetry. apply reparent_other. right. unfold i, new_intf. cbn [f_ipv4]. rewrite S4. reflexivity. }
      exists (new ++ [i]), (pos ++ [length vrfs]). split; cbn [ls_ifs ls_pool ls_vrfs ls_err].
      * fold i. rewrite IFS, <- app_assoc. reflexivity.
      * exact POOL.
      * exact LEN.
      * exact VRFS.
      * apply Forall2_app; [exact MADE|]. constructor; [|constructor]. exists name, v, a, (hosta a). split; [exact NTH|]. split; [apply LAST; split; [exact A|reflexivity]|]. split; [apply host_iff; reflexivity|]. apply new_intf_spec.
      * intros k. split.
        -- intros P. apply in_app_or in P. destruct P as [P|[P|[]]].
           ++ apply POS; [exact (PLT k P)|exact P].
           ++ subst k. exists name, v, a. split; [exact NTH|]. apply LAST. split; [exact A|reflexivity].
        -- intros [n [w [b [E B]]]]. apply in_or_app. destruct (OVER k n w E) as [K|[K _]]; [left; apply POS; [exact K|exists n, w, b; split; assumption]|right; left; symmetry; exact K].
      * intros m n b c B C L. destruct (Nat.lt_ge_cases n (length pos)) as [K|K].
        -- rewrite nth_error_app1 in B, C by lia. exact (I7 m n b c B C L).
        -- rewrite nth_error_app2 in C by exact K. destruct (n - length pos) as [|q] eqn:Q; [|destruct q; discriminate C]. cbn [nth_error] in C. injection C as C. subst c. rewrite nth_error_app1 in B by lia. apply PLT. apply nth_error_In in B. exact B.
      * rewrite map_app. cbn [map]. apply Intf_Props.NoDup_snoc; [exact I8|]. intros K. apply in_map_iff in K. destruct K as [y [Y1 Y2]]. apply (NEWI y Y2). rewrite Y1. reflexivity.
      * intros Z m j J. assert (BF : bad = false /\ ls_err s = 0) by (destruct bad; [discriminate Z|split; [reflexivity|exact Z]]). destruct BF as [BF Z0].
        destruct (Nat.lt_ge_cases m (length new)) as [K|K].
        -- rewrite nth_error_app1 in J by exact K. rewrite firstn_app. replace (m - length new) with 0 by lia. cbn [firstn]. rewrite app_nil_r. exact (I9 Z0 m j J).
        -- rewrite nth_error_app2 in J by exact K. destruct (m - length new) as [|q] eqn:Q; [|destruct q; discriminate J]. cbn [nth_error] in J. injection J as J. subst j. replace m with (length new) by lia.
           rewrite firstn_app, Nat.sub_diag, firstn_all. cbn [firstn]. rewrite app_nil_r, <- IDXALL, <- I1. exact (LI1 BF).
      * intros Z y Y. fold i. rewrite IFS, loop_idx_app. apply in_or_app. left. assert (IN : In y (loop_idx (ls_ifs s))) by (destruct bad; [exact (LI2 eq_refl y Y)|exact (I10 Z y Y)]).
        rewrite I1, IDXALL, loop_idx_app in IN. rewrite loop_idx_app. rewrite (loop_idx_map (reparent (new ++ [i]))); [exact IN|]. intros j. destruct (reparent_keeps (new ++ [i]) j) as [_ [K2 [K3 _]]]. split; assumption.
Qed.

(* an interface that existed before: only the parent of an unnumbered interface is set *)
Definition unnumbered_in (new : list lbif) (i j : lbif) (a : val) : Prop := f_ipv4 i = Some (VBool true) /\ In j new /\ f_vrf j = f_vrf i /\ f_ipv4 j = Some a.
Definition kept (new : list lbif) (i i' : lbif) : Prop :=
  (forall j a, unnumbered_in new i j a -> i' = mk_lb (f_vrf i) (f_type i) (f_index i) (f_name i) (f_ipv4 i) (f_ipv6 i) (Some (f_name j, a)) (f_area i)) /\
  ((forall j a, ~ unnumbered_in new i j a) -> i' = i).

Lemma NoDup_map_inj : forall {A B} (f : A -> B) l x y, NoDup (map f l) -> In x l -> In y l -> f x = f y -> x = y.
Proof.
  intros A B f l x y. induction l as [|z l IH]; intros ND X Y E; [destruct X|]. cbn [map] in ND. inversion ND as [|q m N1 N2]. subst. destruct X as [X|X]; destruct Y as [Y|Y].
  - congruence.
  - subst z. exfalso. apply N1. rewrite E. apply in_map. exact Y.
  - subst z. exfalso. apply N1. rewrite <- E. apply in_map. exact X.
  - exact (IH N2 X Y E).
Qed.

Lemma reparent_kept : forall new i, NoDup (map f_vrf new) -> (forall j, In j new -> f_vrf j <> None) -> kept new i (reparent new i).
Proof.
  intros new i ND SOME. unfold kept, unnumbered_in. split.
  - intros j a [U [J [V A]]]. unfold reparent. destruct (f_vrf i) as [x|] eqn:X; [|exfalso; exact (SOME j J V)]. rewrite U.
    match goal with |- context [find ?g new] => set (P := g); destruct (find P new) as [k|] eqn:F end.
    + apply find_some in F. destruct F as [F1 F2]. unfold P in F2. destruct (f_vrf k) as [y|] eqn:Y; [|discriminate F2]. destruct (f_ipv4 k) as [b|] eqn:B; [|discriminate F2]. apply String.eqb_eq in F2. subst y. assert (Q : k = j) by (apply (NoDup_map_inj f_vrf new); [exact ND|exact F1|exact J|rewrite Y, V; reflexivity]). subst k. rewrite A in B. injection B as B. subst b. reflexivity.
    + exfalso. pose proof (find_none _ _ F j J) as N. unfold P in N. rewrite V, A, String.eqb_refl in N. discriminate N.
  - intros N. unfold reparent. destruct (f_vrf i) as [x|] eqn:X; [|reflexivity]. destruct (f_ipv4 i) as [[|[|]|z|s|l|d]|]; try reflexivity.
    match goal with |- context [find ?g new] => set (P := g); destruct (find P new) as [k|] eqn:F end; [|reflexivity]. exfalso. apply find_some in F. destruct F as [F1 F2]. unfold P in F2. destruct (f_vrf k) as [y|] eqn:Y; [|discriminate F2]. destruct (f_ipv4 k) as [b|] eqn:B; [|discriminate F2]. apply String.eqb_eq in F2. subst y. apply (N k b). split; [reflexivity|]. split; [exact F1|]. split; [exact Y|exact B].
Qed.

(* VRF loopbacks: one new loopback interface for every VRF with a loopback address, in the order of VRFs; address, network and address
   families are added to the VRF; unnumbered interfaces get the loopback as their parent. *)
Theorem vrf_loopbacks_exact : forall ifs vrfs s, NoDup (dkeys vrfs) -> vrf_loopbacks start fmt node_loop node_area parse pool ip6 ifs vrfs = s ->
  exists old new pos, ls_ifs s = old ++ new /\ Forall2 (kept new) ifs old /\
    Forall2 (made vrfs) pos new /\
    (forall k, In k pos <-> exists name v a, nth_error vrfs k = Some (name, v) /\ loop_addr (firstn k vrfs) v a) /\
    (forall m n a b, nth_error pos m = Some a -> nth_error pos n = Some b -> m < n -> a < b) /\
    (ls_err s = 0 -> forall m i, nth_error new m = Some i -> lowest (loop_idx (ifs ++ firstn m new)) (f_index i)) /\
    (ls_err s <> 0 -> forall y, (start <= y < start + 1000)%Z -> In y (loop_idx (ls_ifs s))).
Proof.
  intros ifs vrfs s ND E. destruct (lb_inv_all ifs vrfs ND) as [new [pos I]]. unfold run in I. rewrite E in I. destruct I as [I1 I2 I3 I4 I5 I6 I7 I8 I9 I10].
  exists (map (reparent new) ifs), new, pos. split; [exact I1|]. split; [|repeat (split; [assumption|]); assumption].
  assert (SOME : forall j, In j new -> f_vrf j <> None).
  { intros j J K. destruct (Forall2_In_r _ _ _ _ I5 J) as [k [_ M]]. destruct (made_vrf _ _ _ M) as [n [N1 _]]. rewrite N1 in K. discriminate K. }
  clear I1 I9 I10. induction ifs as [|i l IH]; cbn [map]; constructor; [apply reparent_kept; assumption|]. clear -I8 SOME. induction l as [|i l IH]; cbn [map]; constructor; [apply reparent_kept; assumption|exact IH].
Qed.

(* VRFs after the loopbacks were created *)
Theorem loopback_vrfs_exact : forall ifs vrfs s, NoDup (dkeys vrfs) -> vrf_loopbacks start fmt node_loop node_area parse pool ip6 ifs vrfs = s ->
  length (ls_vrfs s) = length vrfs /\
  forall k name v, nth_error vrfs k = Some (name, v) -> exists v', nth_error (ls_vrfs s) k = Some (name, v') /\
    ((forall a, ~ loop_addr (firstn k vrfs) v a) -> v' = v) /\
    (forall a h, loop_addr (firstn k vrfs) v a -> host a h ->
       v_loop v' = v_loop v /\ v_area v' = v_area v /\ v_nets v' = v_nets v ++ [h] /\ v_lb v' = Some h /\
       set_key (fst h <> None) "ipv4" (v_af v) (v_af v') /\ set_key (snd h <> None) "ipv6" (v_af v) (v_af v') /\
       forall f, f <> "ipv4" -> f <> "ipv6" -> dget f (v_af v') = dget f (v_af v)).
Proof.
  intros ifs vrfs s ND E. destruct (lb_inv_all ifs vrfs ND) as [new [pos I]]. unfold run in I. rewrite E in I. destruct I as [I1 I2 I3 I4 I5 I6 I7 I8 I9 I10].
  split; [exact I3|]. intros k name v N. specialize (I4 k name v N). cbv zeta in I4. set (b := addr_at (length (filter poolb (firstn k vrfs))) v) in *.
  destruct (empty b) eqn:EM.
  - exists v. split; [exact I4|]. split; [reflexivity|]. intros a h A _. apply loop_addr_iff in A. destruct A as [A1 A2]. fold b in A2. apply empty_iff in A1. rewrite A2, A1 in EM. discriminate EM.
  - exists (with_lb v (hosta b)). split; [exact I4|]. split.
    + intros K. exfalso. apply (K b). apply loop_addr_iff. split; [apply empty_iff; exact EM|reflexivity].
    + intros a h A H. apply loop_addr_iff in A. destruct A as [_ A]. fold b in A. subst a. apply host_iff in H. subst h. unfold with_lb. cbn [v_loop v_area v_nets v_lb v_af]. repeat (split; [reflexivity|]).
      refine (lookup2_key _ _ (match fst (hosta b) with Some _ => true | None => false end) (match snd (hosta b) with Some _ => true | None => false end) _ _ _ _ _ _ _ _).
      * discriminate.
      * destruct (fst (hosta b)); split; intros K; try reflexivity; try discriminate. exfalso. apply K. reflexivity.
      * destruct (snd (hosta b)); split; intros K; try reflexivity; try discriminate. exfalso. apply K. reflexivity.
      * intros f. rewrite !set_af_get. reflexivity.
Qed.
End Loopbacks.

(* ------------------------------------------------------------------ *)
(* Examples                                                             *)

(* two VRFs, one of them without RD, and a VRF that does not exist *)
Example ex_af :
  vrf_af [] [("red", mk_pv true [] None); ("blue", mk_pv false [] None)]
    [mk_pi (Some "red") true false; mk_pi None true true; mk_pi (Some "blue") true true; mk_pi (Some "green") true false; mk_pi (Some "green") true false] =
  ([("vpnv4", VBool true)],
   [("red", mk_pv true [("ipv4", VBool true)] None); ("blue", mk_pv false [] None); ("green", mk_pv false [] None)],
   ["blue"; "green"; "green"]).
Proof. reflexivity. Qed.

Example ex_unused : vrf_unused false None [("red", mk_pv true [] None)] [mk_pi None true false] = (true, true) /\
  vrf_unused true None [("red", mk_pv true [] (Some (VBool false)))] [] = (false, false) /\
  vrf_unused true (Some (VBool false)) [("red", mk_pv true [] None)] [] = (true, false).
Proof. repeat split. Qed.

Definition k_red := mk_kv "65000:1" ["65000:1"; "65000:2"] ["65000:1"].
Definition k_blue := mk_kv "65000:2" ["65000:2"] [].
Definition k_com := mk_kv "65000:3" ["65000:3"] ["65000:1"; "65000:3"].
Example ex_leak : validate_leaking None None [("red", k_red); ("blue", k_blue); ("com", k_com)] = (None, ["red"; "com"]) /\
  validate_leaking None (Some 65001%Z) [("blue", k_blue); ("com", k_com)] = (Some 65001%Z, []) /\
  validate_leaking None (Some 65001%Z) [("blue", k_blue)] = (None, []) /\
  validate_leaking (Some 65000%Z) (Some 65001%Z) [("com", k_com)] = (Some 65000%Z, []).
Proof. repeat split. Qed.

(* three VRFs: a prefix from the pool, no loopback, another prefix from the pool; an unnumbered interface in the last one *)
Definition x_fmt (z : Z) : string := if (z =? 1)%Z then "Loopback1" else if (z =? 2)%Z then "Loopback2" else "Loopback".
Definition x_pool (n : nat) : laddr := match n with 0 => (Some "10.2.0.1/32", None) | 1 => (Some "10.2.0.2/32", Some "2001:db8:2::/64") | _ => (None, None) end.
Definition x_ip6 (s : string) : string := "2001:db8:2::1/64".
Definition x_vrfs : dict lvrf :=
  [("red", mk_lv (Some (VBool true)) None [] [] None); ("blue", mk_lv None None [] [] None); ("green", mk_lv (Some (VBool true)) (Some (VStr "0.0.0.1")) [] [] None)].
Definition x_ifs : list lbif := [mk_lb (Some "green") None 1 "eth1" (Some (VBool true)) None None None; mk_lb (Some "blue") None 2 "eth2" (Some (VBool true)) None None None].
Example ex_loopbacks : NoDup (dkeys x_vrfs) /\
  vrf_loopbacks 10001 x_fmt None (Some (VStr "0.0.0.0")) (fun _ => (None, None)) x_pool x_ip6 x_ifs x_vrfs =
  mk_ls [mk_lb (Some "green") None 1 "eth1" (Some (VBool true)) None (Some ("Loopback2", VStr "10.2.0.2/32")) None;
         mk_lb (Some "blue") None 2 "eth2" (Some (VBool true)) None None None;
         mk_lb (Some "red") (Some "loopback") 10001 "Loopback1" (Some (VStr "10.2.0.1/32")) None None (Some (VStr "0.0.0.0"));
         mk_lb (Some "green") (Some "loopback") 10002 "Loopback2" (Some (VStr "10.2.0.2/32")) (Some (VStr "2001:db8:2::1/64")) None (Some (VStr "0.0.0.1"))]
    2 0
    [("red", mk_lv (Some (VBool true)) None [("ipv4", VBool true)] [(Some "10.2.0.1/32", None)] (Some (Some "10.2.0.1/32", None)));
     ("blue", mk_lv None None [] [] None);
     ("green", mk_lv (Some (VBool true)) (Some (VStr "0.0.0.1")) [("ipv4", VBool true); ("ipv6", VBool true)]
        [(Some "10.2.0.2/32", Some "2001:db8:2::1/64")] (Some (Some "10.2.0.2/32", Some "2001:db8:2::1/64")))].
Proof.
  split; [|vm_compute; reflexivity].
  repeat constructor; cbn [In map fst dkeys x_vrfs]; intros H; repeat (destruct H as [H|H]; [discriminate H|]); exact H.
Qed.

(* indices used by loopbacks *)
Theorem loop_idx_exact : forall l x, In x (loop_idx l) <-> exists i, In i l /\ f_type i = Some "loopback" /\ f_index i = x.
Proof.
  intros l x. unfold loop_idx. rewrite in_map_iff. split.
  - intros [i [E I]]. apply filter_In in I. destruct I as [I L]. exists i. split; [exact I|]. split; [|exact E]. unfold is_loop in L. destruct (f_type i) as [t|]; [|discriminate L]. apply String.eqb_eq in L. subst t. reflexivity.
  - intros [i [I [T E]]]. exists i. split; [exact E|]. apply filter_In. split; [exact I|]. unfold is_loop. rewrite T. reflexivity.
Qed.

Print Assumptions loop_idx_exact.
Print Assumptions vrf_af_exact.
Print Assumptions vrf_unused_exact.
Print Assumptions leaking_exact.
Print Assumptions vrf_loopbacks_exact.
Print Assumptions loopback_vrfs_exact.
