(* Properties of the setup of address pools, of their cleanup and of search paths. *)
From Coq Require Import String Ascii ZArith Lia Bool List.
From Verif Require Import Base Box_Model Dev_Model Mod_Model Pset_Model Box_Props Mod_Props Asg_Props Text_Props.
Import ListNotations.
Local Open Scope string_scope.
Local Open Scope list_scope.

Section PoolProps.
Variable norm : string -> option string.
Variable pct0 : string -> string.

(* ------------------------------------------------------------------ *)
(* C224: address pools                                                  *)

(* normalized form of an address prefix: unparsable texts become false *)
Definition normalized (x y : val) : Prop :=
  (exists s t, x = VStr s /\ norm s = Some t /\ y = VStr t) \/ (exists s, x = VStr s /\ norm s = None /\ y = VBool false)
  \/ ((forall s, x <> VStr s) /\ y = x).
(* an address family that a prefix really has *)
Definition usable (d : dict val) (af : string) (x : val) : Prop := dget af d = Some x /\ truthy x = true /\ ~ In "unnumbered" (dkeys d).

Lemma ip_normalized : forall x y, fst (normalize_ip norm x) = y <-> normalized x y.
Proof.
  intros x y. unfold normalize_ip, normalized. destruct x as [|b|z|s|l|d]; cbn [fst].
  1,2,3,5,6: split; [intros E; right; right; split; [intros s; discriminate|symmetry; exact E]|intros [[s [t [E _]]]|[[s [E _]]|[_ E]]]; [discriminate E|discriminate E|symmetry; exact E]].
  destruct (norm s) as [t|] eqn:N; cbn [fst]; split.
  - intros E. left. exists s, t. auto.
  - intros [[s' [t' [E [M Y]]]]|[[s' [E [M Y]]]|[Q _]]]; [injection E as E; subst s'; congruence|injection E as E; subst s'; congruence|exfalso; exact (Q s eq_refl)].
  - intros E. right. left. exists s. auto.
  - intros [[s' [t' [E [M Y]]]]|[[s' [E [M Y]]]|[Q _]]]; [injection E as E; subst s'; congruence|injection E as E; subst s'; congruence|exfalso; exact (Q s eq_refl)].
Qed.

Lemma ip_errors : forall x s, In s (snd (normalize_ip norm x)) <-> x = VStr s /\ norm s = None.
Proof.
  intros x s. unfold normalize_ip. destruct x as [|b|z|t|l|d]; cbn [snd].
  1,2,3,5,6: split; [intros []|intros [E _]; discriminate E].
  destruct (norm t) as [u|] eqn:N; cbn [snd]; split.
  - intros [].
  - intros [E M]. injection E as E. subst t. congruence.
  - intros [E|[]]. subst t. auto.
  - intros [E M]. injection E as E. subst t. left. reflexivity.
Qed.

Definition keepb (d : dict val) (af : string) : option val :=
  match dget af d with Some x => if negb (truthy x) || dmem "unnumbered" d then None else Some (fst (normalize_ip norm x)) | None => None end.

Lemma af_get : forall d errs af, af <> "unnumbered" ->
  dget af (fst (normalize_af norm (d, errs) af)) = keepb d af
  /\ forall k, k <> af -> dget k (fst (normalize_af norm (d, errs) af)) = dget k d.
Proof.
  intros d errs af NU. unfold normalize_af, keepb. cbn [fst snd]. destruct (dget af d) as [x|] eqn:G; [|split; [exact G|reflexivity]].
  destruct (negb (truthy x) || dmem "unnumbered" d); cbn [fst].
  - split; [apply dget_dpop_same|]. intros k N. apply dget_dpop_other. exact N.
  - split; [apply dget_dset_same|]. intros k N. apply dget_dset_other. exact N.
Qed.

Lemma dmem_get : forall A (d d' : dict A) k, dget k d' = dget k d -> dmem k d' = dmem k d.
Proof. intros A d d' k E. unfold dmem. rewrite E. reflexivity. Qed.

Lemma keep_usable : forall d af y, keepb d af = Some y <-> exists x, usable d af x /\ normalized x y.
Proof.
  intros d af y. unfold keepb, usable. destruct (dget af d) as [x|]; [|split; [intros H; discriminate H|intros [x [[E _] _]]; discriminate E]].
  assert (U : dmem "unnumbered" d = true <-> In "unnumbered" (dkeys d)) by apply dmem_true.
  destruct (truthy x) eqn:T; cbn [negb orb].
  - destruct (dmem "unnumbered" d) eqn:M.
    + split; [intros H; discriminate H|]. intros [z [[_ [_ N]] _]]. exfalso. apply N. apply U. reflexivity.
    + split.
      * intros H. injection H as H. exists x. split; [split; [reflexivity|split; [exact T|]]|apply ip_normalized; exact H]. intros Q. apply U in Q. discriminate Q.
      * intros [z [[E _] N]]. injection E as E. subst z. apply ip_normalized in N. rewrite N. reflexivity.
  - split; [intros H; discriminate H|]. intros [z [[E [Q _]] _]]. injection E as E. subst z. congruence.
Qed.

Lemma prefix_dict : forall d : dict val, fst (normalize_prefix norm (VDict d)) = fst (fold_left (normalize_af norm) ["ipv4"; "ipv6"] (d, []))
  /\ snd (normalize_prefix norm (VDict d)) = snd (fold_left (normalize_af norm) ["ipv4"; "ipv6"] (d, [])).
Proof.
  intros d. unfold normalize_prefix. destruct d as [|x d]; [split; reflexivity|]. split; reflexivity.
Qed.

Lemma af_errs : forall d errs af, snd (normalize_af norm (d, errs) af) = errs ++ snd (normalize_af norm (d, []) af).
Proof.
  intros d errs af. unfold normalize_af. cbn [fst snd]. destruct (dget af d) as [x|]; [|cbn [snd]; rewrite app_nil_r; reflexivity].
  destruct (negb (truthy x) || dmem "unnumbered" d); cbn [snd app]; [rewrite app_nil_r; reflexivity|reflexivity].
Qed.

Lemma af_err : forall d af s, In s (snd (normalize_af norm (d, []) af)) <-> usable d af (VStr s) /\ norm s = None.
Proof.
  intros d af s. unfold normalize_af, usable. cbn [fst snd]. destruct (dget af d) as [x|]; [|split; [intros []|intros [[E _] _]; discriminate E]].
  assert (U : dmem "unnumbered" d = true <-> In "unnumbered" (dkeys d)) by apply dmem_true.
  destruct (truthy x) eqn:T; cbn [negb orb].
  - destruct (dmem "unnumbered" d) eqn:M; cbn [snd app].
    + split; [intros []|]. intros [[_ [_ N]] _]. exfalso. apply N. apply U. reflexivity.
    + rewrite ip_errors. split.
      * intros [E N]. subst x. split; [|exact N]. split; [reflexivity|]. split; [exact T|]. intros Q. apply U in Q. discriminate Q.
      * intros [[E _] N]. injection E as E. subst x. auto.
  - split; [intros []|]. intros [[E [Q _]] _]. injection E as E. subst x. congruence.
Qed.

Theorem pool_prefix_exact : forall d : dict val,
  (forall af, af = "ipv4" \/ af = "ipv6" -> forall y,
     dget af (fst (normalize_prefix norm (VDict d))) = Some y <-> exists x, usable d af x /\ normalized x y)
  /\ (forall k, k <> "ipv4" -> k <> "ipv6" -> dget k (fst (normalize_prefix norm (VDict d))) = dget k d)
  /\ (forall s, In s (snd (normalize_prefix norm (VDict d)))
        <-> (usable d "ipv4" (VStr s) \/ usable d "ipv6" (VStr s)) /\ norm s = None).
Proof.
  intros d. destruct (prefix_dict d) as [E1 E2]. rewrite E1, E2. cbn [fold_left]. set (st := normalize_af norm (d, []) "ipv4").
  destruct (af_get d [] "ipv4") as [A0 B0]; [discriminate|].
  assert (A : dget "ipv4" (fst st) = keepb d "ipv4") by exact A0. assert (B : forall k, k <> "ipv4" -> dget k (fst st) = dget k d) by exact B0. clear A0 B0.
  assert (ST : st = (fst st, snd st)) by (destruct st; reflexivity).
  assert (UN : dmem "unnumbered" (fst st) = dmem "unnumbered" d) by (apply dmem_get; apply B; discriminate).
  destruct (af_get (fst st) (snd st) "ipv6") as [C D]; [discriminate|]. rewrite <- ST in C, D.
  assert (K6 : keepb (fst st) "ipv6" = keepb d "ipv6") by (unfold keepb; rewrite UN, B by discriminate; reflexivity).
  split; [|split].
  - intros af [E|E] y; subst af.
    + rewrite D by discriminate. rewrite A. apply keep_usable.
    + rewrite C, K6. apply keep_usable.
  - intros k N4 N6. rewrite D by exact N6. apply B. exact N4.
  - intros s. rewrite ST. rewrite af_errs, in_app_iff. unfold st at 1. rewrite af_err, af_err.
    assert (U6 : usable (fst st) "ipv6" (VStr s) <-> usable d "ipv6" (VStr s)).
    { unfold usable. rewrite B by discriminate. rewrite <- !dmem_true, UN. reflexivity. }
    rewrite U6. split; [intros [[X Y]|[X Y]]; auto|intros [[X|X] Y]; auto].
Qed.

(* value of a pool before normalization: the definition merged into the legacy pool *)
Definition effective (o : old_defaults) (addrs : dict val) (p : string) : option val := mopt (dget p (legacy_pools pct0 o addrs)) (dget p addrs).

Definition pool_length (p : string) (n : Z) : Prop := (occurs "loopback" p /\ n = 32%Z) \/ (~ occurs "loopback" p /\ n = 24%Z).

Lemma pool_length_spec : forall p, pool_length p (if contains "loopback" p then 32 else 24)%Z.
Proof.
  intros p. unfold pool_length. destruct (contains "loopback" p) eqn:C.
  - left. split; [apply contains_spec; exact C|reflexivity].
  - right. split; [|reflexivity]. intros Q. apply contains_spec in Q. congruence.
Qed.

(* a pool [d] made from the value [v] *)
Definition pool_of (p : string) (v : val) (d : dict val) : Prop :=
  (truthy v = false -> d = [])
  /\ (truthy v = true -> is_dict v = false -> exists y n, normalized v y /\ pool_length p n /\ d = [("ipv4", y); ("prefix", VInt n)])
  /\ (forall e, v = VDict e ->
        (forall af, af = "ipv4" \/ af = "ipv6" -> forall y, dget af d = Some y <-> exists x, usable e af x /\ normalized x y)
        /\ (forall k, k <> "ipv4" -> k <> "ipv6" -> k <> "prefix" -> dget k d = dget k e)
        /\ (forall x, dget "prefix" e = Some x -> dget "prefix" d = Some x)
        /\ (dget "prefix" e = None -> (exists y, dget "ipv4" d = Some y) -> exists n, pool_length p n /\ dget "prefix" d = Some (VInt n))
        /\ (dget "prefix" e = None -> dget "ipv4" d = None -> dget "prefix" d = None)).

Lemma length_get : forall p d, (forall k, k <> "prefix" -> dget k (set_length p d) = dget k d)
  /\ (forall x, dget "prefix" d = Some x -> dget "prefix" (set_length p d) = Some x)
  /\ (dget "prefix" d = None -> (exists y, dget "ipv4" d = Some y) -> exists n, pool_length p n /\ dget "prefix" (set_length p d) = Some (VInt n))
  /\ (dget "prefix" d = None -> dget "ipv4" d = None -> dget "prefix" (set_length p d) = None).
Proof.
  intros p d. unfold set_length, dmem. destruct (dget "ipv4" d) as [y|] eqn:G4; cbn [andb].
  - destruct (dget "prefix" d) as [x|] eqn:GP; cbn [negb].
    + split; [reflexivity|]. split; [intros z E; rewrite GP; exact E|]. split; intros E; discriminate E.
    + split; [intros k N; apply dget_dset_other; exact N|]. split; [intros z E; discriminate E|]. split; [|intros _ E; discriminate E].
      intros _ _. exists (if contains "loopback" p then 32 else 24)%Z. split; [apply pool_length_spec|apply dget_dset_same].
  - split; [reflexivity|]. split; [intros x E; exact E|]. split; [intros _ [y E]; discriminate E|intros E _; exact E].
Qed.

Lemma pool_ok : forall p v, pool_of p v (set_length p (fst (normalize_prefix norm v))).
Proof.
  intros p v. split; [|split].
  - intros T. unfold normalize_prefix. rewrite T. reflexivity.
  - intros T D. assert (E : fst (normalize_prefix norm v) = [("ipv4", fst (normalize_ip norm v))]).
    { unfold normalize_prefix. rewrite T. cbn [negb]. destruct v; try reflexivity; discriminate D. }
    rewrite E. exists (fst (normalize_ip norm v)), (if contains "loopback" p then 32 else 24)%Z.
    split; [apply ip_normalized; reflexivity|]. split; [apply pool_length_spec|]. reflexivity.
  - intros e E. subst v. destruct (pool_prefix_exact e) as [A [B _]]. destruct (length_get p (fst (normalize_prefix norm (VDict e)))) as [L1 [L2 [L3 L4]]].
    split; [|split; [|split; [|split]]].
    + intros af H y. rewrite L1 by (destruct H as [H|H]; subst af; discriminate). apply A. exact H.
    + intros k N4 N6 NP. rewrite L1 by exact NP. apply B; assumption.
    + intros x G. apply L2. rewrite B by discriminate. exact G.
    + intros G Y. apply L3; [rewrite B by discriminate; exact G|]. rewrite <- L1 by discriminate. exact Y.
    + intros G Y. apply L4; [rewrite B by discriminate; exact G|]. rewrite <- L1 by discriminate. exact Y.
Qed.

Lemma dget_map_val : forall (f : string * val -> val) (d : dict val) k,
  dget k (map (fun p => (fst p, f p)) d) = match dget k d with Some v => Some (f (k, v)) | None => None end.
Proof.
  intros f d k. induction d as [|[j v] r IH]; [reflexivity|]. cbn [map fst dget]. destruct (String.eqb_spec k j) as [E|E]; [subst j; reflexivity|exact IH].
Qed.

Theorem setup_pools_exact : forall o addrs p, NoDup (dkeys addrs) ->
  match effective o addrs p with
  | Some v => exists d, dget p (fst (setup_pools norm pct0 o addrs)) = Some (VDict d) /\ pool_of p v d
  | None => dget p (fst (setup_pools norm pct0 o addrs)) = None
  end.
Proof.
  intros o addrs p ND. unfold effective. rewrite <- dget_mdict by exact ND. unfold setup_pools. rewrite merge_dicts. cbn [entries fst].
  rewrite (dget_map_val (fun p => VDict (set_length (fst p) (fst (normalize_prefix norm (snd p)))))). cbn [fst snd].
  destruct (dget p (mdict (legacy_pools pct0 o addrs) addrs)) as [v|]; [|reflexivity].
  exists (set_length p (fst (normalize_prefix norm v))). split; [reflexivity|apply pool_ok].
Qed.

Theorem setup_pools_names : forall o addrs p, NoDup (dkeys addrs) ->
  ((exists v, dget p (fst (setup_pools norm pct0 o addrs)) = Some v) <-> p = "lan" \/ p = "loopback" \/ p = "p2p" \/ In p (dkeys addrs)).
Proof.
  intros o addrs p ND. pose proof (setup_pools_exact o addrs p ND) as H. unfold effective in H.
  assert (L : (exists x, dget p (legacy_pools pct0 o addrs) = Some x) <-> p = "lan" \/ p = "loopback" \/ p = "p2p").
  { unfold legacy_pools. cbn [dget]. destruct (String.eqb_spec p "lan") as [E1|E1]; [split; [auto|intros _; eexists; reflexivity]|].
    destruct (String.eqb_spec p "loopback") as [E2|E2]; [split; [auto|intros _; eexists; reflexivity]|].
    destruct (String.eqb_spec p "p2p") as [E3|E3]; [split; [auto|intros _; eexists; reflexivity]|].
    split; [intros [x Q]; discriminate Q|intros [Q|[Q|Q]]; congruence]. }
  assert (A : In p (dkeys addrs) <-> exists x, dget p addrs = Some x).
  { rewrite <- dmem_true. unfold dmem. destruct (dget p addrs) as [x|]; split; intros Q; try reflexivity; try discriminate Q; [exists x; reflexivity|destruct Q as [x Q]; discriminate Q]. }
  assert (R : (exists v, dget p (fst (setup_pools norm pct0 o addrs)) = Some v) <-> (exists x, dget p (legacy_pools pct0 o addrs) = Some x) \/ exists x, dget p addrs = Some x).
  { destruct (dget p (legacy_pools pct0 o addrs)) as [a|]; destruct (dget p addrs) as [b|]; cbn [mopt] in H.
    - destruct H as [d [H _]]. rewrite H. split; intros _; [left; exists a; reflexivity|exists (VDict d); reflexivity].
    - destruct H as [d [H _]]. rewrite H. split; intros _; [left; exists a; reflexivity|exists (VDict d); reflexivity].
    - destruct H as [d [H _]]. rewrite H. split; intros _; [right; exists b; reflexivity|exists (VDict d); reflexivity].
    - rewrite H. split; [intros [v Q]; discriminate Q|]. intros [[x Q]|[x Q]]; discriminate Q. }
  rewrite R, L, A. tauto.
Qed.

(* legacy pools *)
Theorem legacy_pools_exact : forall o addrs, let l := VDict (legacy_pools pct0 o addrs) in
  (forall v, od_lan o = Some v -> lookup ["lan"; "ipv4"] l = Some v) /\ (od_lan o = None -> lookup ["lan"; "ipv4"] l = Some (VStr "10.0.0.0/16"))
  /\ (forall v, od_lan_subnet o = Some v -> lookup ["lan"; "prefix"] l = Some v) /\ (od_lan_subnet o = None -> lookup ["lan"; "prefix"] l = Some (VInt 24))
  /\ (lookup ["lan"; "start"] l = Some (VInt 1) <-> od_lan o = None /\ ~ In "lan" (dkeys addrs))
  /\ (forall s, od_loopback o = Some s -> lookup ["loopback"; "ipv4"] l = Some (VStr (pct0 s ++ "/24"))) /\ (od_loopback o = None -> lookup ["loopback"; "ipv4"] l = Some (VStr (pct0 "10.0.0.%d" ++ "/24")))
  /\ lookup ["loopback"; "prefix"] l = Some (VInt 32)
  /\ (forall v, od_p2p o = Some v -> lookup ["p2p"; "ipv4"] l = Some v) /\ (od_p2p o = None -> lookup ["p2p"; "ipv4"] l = Some (VStr "10.2.0.0/16"))
  /\ (forall v, od_p2p_subnet o = Some v -> lookup ["p2p"; "prefix"] l = Some v) /\ (od_p2p_subnet o = None -> lookup ["p2p"; "prefix"] l = Some (VInt 30))
  /\ (forall p k v, lookup [p; k] l = Some v -> In k ["ipv4"; "prefix"] \/ p = "lan" /\ k = "start").
Proof.
  intros [a b c e f] addrs. cbv zeta. unfold legacy_pools. cbn [od_lan od_lan_subnet od_loopback od_p2p od_p2p_subnet].
  split; [intros v E; subst a; reflexivity|]. split; [intros E; subst a; reflexivity|].
  split; [intros v E; subst b; reflexivity|]. split; [intros E; subst b; reflexivity|].
  split.
  { rewrite <- (dmem_true "lan" addrs). destruct a as [a|]; [split; [intros Q; discriminate Q|intros [Q _]; discriminate Q]|].
    destruct (dmem "lan" addrs); [split; [intros Q; discriminate Q|intros [_ Q]; exfalso; apply Q; reflexivity]|].
    split; [intros _; split; [reflexivity|discriminate]|reflexivity]. }
  split; [intros s E; subst c; reflexivity|]. split; [intros E; subst c; reflexivity|]. split; [reflexivity|].
  split; [intros v E; subst e; reflexivity|]. split; [intros E; subst e; reflexivity|].
  split; [intros v E; subst f; reflexivity|]. split; [intros E; subst f; reflexivity|].
  intros p k v H. cbn [lookup dget] in H. destruct (String.eqb_spec p "lan") as [E1|E1].
  - cbn [app dget] in H. destruct (String.eqb_spec k "ipv4") as [K|K]; [left; left; symmetry; exact K|].
    destruct (String.eqb_spec k "prefix") as [K2|K2]; [left; right; left; symmetry; exact K2|]. right. split; [exact E1|].
    destruct a as [a|]; [discriminate H|]. destruct (dmem "lan" addrs); [discriminate H|]. cbn [dget] in H.
    destruct (String.eqb_spec k "start") as [K3|K3]; [exact K3|discriminate H].
  - left. destruct (String.eqb p "loopback"); [|destruct (String.eqb p "p2p"); [|discriminate H]]; cbn [dget] in H;
      (destruct (String.eqb_spec k "ipv4") as [K|K]; [left; symmetry; exact K|]); (destruct (String.eqb_spec k "prefix") as [K2|K2]; [right; left; symmetry; exact K2|discriminate H]).
Qed.

(* exactly the unparsable prefixes are reported *)
Theorem setup_pools_errors : forall o addrs s, NoDup (dkeys addrs) ->
  (In s (snd (setup_pools norm pct0 o addrs)) <-> norm s = None /\ exists p v, effective o addrs p = Some v
     /\ (v = VStr s /\ s <> "" \/ exists e, v = VDict e /\ (usable e "ipv4" (VStr s) \/ usable e "ipv6" (VStr s)))).
Proof.
  intros o addrs s ND. unfold setup_pools. rewrite merge_dicts. cbn [entries snd]. rewrite in_flat_map.
  assert (NP : forall v, In s (snd (normalize_prefix norm v)) <-> norm s = None
     /\ (v = VStr s /\ s <> "" \/ exists e, v = VDict e /\ (usable e "ipv4" (VStr s) \/ usable e "ipv6" (VStr s)))).
  { intros v. destruct v as [|b|z|t|l|d].
    1,2,3,5: (unfold normalize_prefix; destruct (negb _); cbn [snd normalize_ip]; (split; [intros []|intros [_ [[E _]|[e [E _]]]]; discriminate E])).
    - unfold normalize_prefix. destruct (truthy (VStr t)) eqn:T; cbn [negb snd].
      + rewrite ip_errors. split.
        * intros [E N]. split; [exact N|]. left. split; [exact E|]. injection E as E. subst t. intros Q. subst s. discriminate T.
        * intros [N [[E _]|[e [E _]]]]; [auto|discriminate E].
      + split; [intros []|]. intros [N [[E Q]|[e [E _]]]]; [|discriminate E]. injection E as E. subst t. exfalso. apply Q. destruct s; [reflexivity|discriminate T].
    - destruct (pool_prefix_exact d) as [_ [_ H]]. rewrite H. split.
      + intros [U N]. split; [exact N|]. right. exists d. auto.
      + intros [N [[E _]|[e [E U]]]]; [discriminate E|]. injection E as E. subst e. auto. }
  assert (NDm : NoDup (dkeys (mdict (legacy_pools pct0 o addrs) addrs))).
  { apply NoDup_mdict; [|exact ND]. cbn. repeat constructor; cbn; intuition discriminate. }
  unfold effective. split.
  - intros [[p v] [I J]]. cbn [snd] in J. apply NP in J. destruct J as [N J]. split; [exact N|]. exists p, v. split; [|exact J].
    rewrite <- dget_mdict by exact ND. exact (dget_NoDup _ _ _ NDm I).
  - intros [N [p [v [E J]]]]. rewrite <- dget_mdict in E by exact ND. exists (p, v). split; [exact (dget_In _ _ E)|]. cbn [snd]. apply NP. auto.
Qed.

(* normalizing a normalized pool changes nothing *)
Lemma ip_again : forall x, (forall s t, norm s = Some t -> norm t = Some t) -> snd (normalize_ip norm x) = [] ->
  normalize_ip norm (fst (normalize_ip norm x)) = (fst (normalize_ip norm x), []).
Proof.
  intros x NI H. unfold normalize_ip in *. destruct x as [|b|z|s|l|d]; try reflexivity. destruct (norm s) as [t|] eqn:N; cbn [fst snd] in *; [|discriminate H].
  rewrite (NI _ _ N). reflexivity.
Qed.

Definition stable (d : dict val) (af : string) : Prop :=
  dget af d = None \/ exists y, dget af d = Some y /\ truthy y = true /\ dmem "unnumbered" d = false /\ normalize_ip norm y = (y, []).

Lemma stable_id : forall d af, stable d af -> normalize_af norm (d, []) af = (d, []).
Proof.
  intros d af [E|[y [E [T [U N]]]]]; unfold normalize_af; cbn [fst snd]; rewrite E; [reflexivity|]. rewrite T, U, N. cbn [negb orb fst snd app].
  rewrite (dset_id _ _ _ E). reflexivity.
Qed.

Theorem pool_normalized_once : forall p v, (forall s t, norm s = Some t -> norm t = Some t /\ t <> "") ->
  snd (normalize_prefix norm v) = [] -> let d := set_length p (fst (normalize_prefix norm v)) in
  normalize_prefix norm (VDict d) = (d, []) /\ set_length p d = d.
Proof.
  intros p v NI NE d. assert (L : set_length p d = d).
  { unfold d, set_length at 2 3. set (e := fst (normalize_prefix norm v)). destruct (dmem "ipv4" e && negb (dmem "prefix" e)) eqn:C.
    - unfold set_length. assert (M : dmem "prefix" (dset "prefix" (VInt (if contains "loopback" p then 32 else 24)) e) = true) by (unfold dmem; rewrite dget_dset_same; reflexivity).
      rewrite M. cbn [negb]. rewrite andb_false_r. reflexivity.
    - unfold set_length. rewrite C. reflexivity. }
  split; [|exact L].
  assert (S : forall e, (forall k, k <> "prefix" -> dget k d = dget k e) -> stable e "ipv4" -> stable e "ipv6" -> normalize_prefix norm (VDict d) = (d, [])).
  { intros e G S4 S6. assert (T : forall af, af <> "prefix" -> stable e af -> stable d af).
    { intros af N [E|[y [E [TR [U W]]]]]; [left; rewrite G by exact N; exact E|right]. exists y. rewrite G by exact N. split; [exact E|]. split; [exact TR|].
      split; [|exact W]. unfold dmem in *. rewrite G by discriminate. exact U. }
    destruct (prefix_dict d) as [P1 P2]. rewrite (surjective_pairing (normalize_prefix norm (VDict d))), P1, P2. cbn [fold_left].
    rewrite (stable_id d "ipv4") by (apply T; [discriminate|exact S4]). rewrite (stable_id d "ipv6") by (apply T; [discriminate|exact S6]). reflexivity. }
  assert (TI : forall x, truthy x = true -> snd (normalize_ip norm x) = [] -> truthy (fst (normalize_ip norm x)) = true).
  { intros x T E. unfold normalize_ip in *. destruct x as [|b|z|s|l|e]; try exact T. destruct (norm s) as [t|] eqn:N; cbn [fst snd] in *; [|discriminate E].
    destruct (NI _ _ N) as [_ Q]. destruct t; [contradiction Q; reflexivity|reflexivity]. }
  assert (NI' : forall s t, norm s = Some t -> norm t = Some t) by (intros s t N; apply (NI _ _ N)).
  apply (S (fst (normalize_prefix norm v))).
  { intros k N. unfold d. apply length_get. exact N. }
  - destruct (truthy v) eqn:T; [|left; unfold normalize_prefix; rewrite T; reflexivity]. destruct (is_dict v) eqn:D.
    + destruct v as [|b|z|s|l|e]; try discriminate D. destruct (pool_prefix_exact e) as [A [B C]].
      destruct (dget "ipv4" (fst (normalize_prefix norm (VDict e)))) as [y|] eqn:G; [right; exists y|left; exact G].
      pose proof (proj1 (A "ipv4" (or_introl eq_refl) y) G) as [x [U N]]. apply ip_normalized in N.
      assert (NX : snd (normalize_ip norm x) = []).
      { destruct (snd (normalize_ip norm x)) as [|s r] eqn:W; [reflexivity|]. exfalso. assert (I : In s (snd (normalize_ip norm x))) by (rewrite W; left; reflexivity).
        apply ip_errors in I. destruct I as [X NN]. subst x. assert (J : In s (snd (normalize_prefix norm (VDict e)))) by (apply C; auto). rewrite NE in J. destruct J. }
      split; [exact G|]. destruct U as [U1 [U2 U3]]. split; [rewrite <- N; apply TI; assumption|]. split; [|rewrite <- N; apply ip_again; assumption].
      rewrite <- not_true_iff_false. unfold dmem. rewrite B by discriminate. fold (dmem "unnumbered" e). rewrite dmem_true. exact U3.
    + right. exists (fst (normalize_ip norm v)). unfold normalize_prefix in *. rewrite T in *. cbn [negb] in *.
      destruct v as [|b|z|s|l|e]; try discriminate D; cbn [fst snd] in *; (split; [reflexivity|]; split; [apply TI; [exact T|exact NE]|]; split; [reflexivity|apply ip_again; [exact NI'|exact NE]]).
  - destruct (truthy v) eqn:T; [|left; unfold normalize_prefix; rewrite T; reflexivity]. destruct (is_dict v) eqn:D.
    + destruct v as [|b|z|s|l|e]; try discriminate D. destruct (pool_prefix_exact e) as [A [B C]].
      destruct (dget "ipv6" (fst (normalize_prefix norm (VDict e)))) as [y|] eqn:G; [right; exists y|left; exact G].
      pose proof (proj1 (A "ipv6" (or_intror eq_refl) y) G) as [x [U N]]. apply ip_normalized in N.
      assert (NX : snd (normalize_ip norm x) = []).
      { destruct (snd (normalize_ip norm x)) as [|s r] eqn:W; [reflexivity|]. exfalso. assert (I : In s (snd (normalize_ip norm x))) by (rewrite W; left; reflexivity).
        apply ip_errors in I. destruct I as [X NN]. subst x. assert (J : In s (snd (normalize_prefix norm (VDict e)))) by (apply C; auto). rewrite NE in J. destruct J. }
      split; [exact G|]. destruct U as [U1 [U2 U3]]. split; [rewrite <- N; apply TI; assumption|]. split; [|rewrite <- N; apply ip_again; assumption].
      rewrite <- not_true_iff_false. unfold dmem. rewrite B by discriminate. fold (dmem "unnumbered" e). rewrite dmem_true. exact U3.
    + left. unfold normalize_prefix in *. rewrite T in *. cbn [negb] in *. destruct v as [|b|z|s|l|e]; try discriminate D; reflexivity.
Qed.
End PoolProps.

(* pools with IPv6 only get the legacy IPv4 prefix *)
Theorem ipv6_only_pool_refuted : exists norm pct0 o addrs,
  addrs = [("lan", VDict [("ipv6", VStr "2001:db8::/48")])]
  /\ lookup ["lan"; "ipv4"] (VDict (fst (setup_pools norm pct0 o addrs))) = Some (VStr "10.0.0.0/16").
Proof.
  exists (fun s => Some s), (fun _ => "10.0.0.0"), (OD None None None None None), [("lan", VDict [("ipv6", VStr "2001:db8::/48")])]. split; reflexivity.
Qed.

Definition ex_norm (s : string) : option string := if String.eqb s "bad" then None else Some s.
Definition ex_addrs : dict val :=
  [("lan", VStr "172.16.0.0/16"); ("loopback", VDict [("ipv6", VBool true)]); ("core", VDict [("ipv4", VStr "10.1.0.0/16"); ("unnumbered", VBool true)]);
   ("vrf_loopback", VStr "10.2.0.0/24"); ("x", VDict [("ipv6", VStr "bad"); ("ipv4", VBool false)]); ("off", VNull)].

Example setup_pools_case : setup_pools ex_norm (fun _ => "10.0.0.0") (OD None None None (Some (VStr "10.9.0.0/16")) None) ex_addrs =
  ([("lan", VDict [("ipv4", VStr "172.16.0.0/16"); ("prefix", VInt 24)]);
    ("loopback", VDict [("ipv4", VStr "10.0.0.0/24"); ("prefix", VInt 32); ("ipv6", VBool true)]);
    ("p2p", VDict [("ipv4", VStr "10.9.0.0/16"); ("prefix", VInt 30)]);
    ("core", VDict [("unnumbered", VBool true)]); ("vrf_loopback", VDict [("ipv4", VStr "10.2.0.0/24"); ("prefix", VInt 32)]);
    ("x", VDict [("ipv6", VBool false)]); ("off", VDict [])], ["bad"]) /\ NoDup (dkeys ex_addrs).
Proof. split; [reflexivity|]. repeat constructor; cbn; intuition discriminate. Qed.
Example pool_once_case : let n := fun s => if String.eqb s "" then None else Some s in
  (forall s t, n s = Some t -> n t = Some t /\ t <> "") /\ snd (normalize_prefix n (VDict [("ipv4", VStr "10.1.0.0/16")])) = [].
Proof.
  cbv zeta. split; [|reflexivity]. intros s t H. destruct (String.eqb_spec s "") as [E|E]; [discriminate H|]. injection H as H. subst t.
  split; [|exact E]. destruct (String.eqb_spec s "") as [Q|Q]; [contradiction|reflexivity].
Qed.

(* ------------------------------------------------------------------ *)
(* C225: cleanup of pools                                               *)

Theorem pool_cleanup_exact : forall addrs p k,
  match dget p addrs, dget p (cleanup_topology addrs) with
  | Some d, Some c => ((occurs "_pfx" k \/ occurs "_eui" k) -> dget k c = None) /\ (~ occurs "_pfx" k -> ~ occurs "_eui" k -> dget k c = dget k d)
  | None, None => True
  | _, _ => False
  end.
Proof.
  intros addrs p k. unfold cleanup_topology. induction addrs as [|[q d] r IH]; [exact I|]. cbn [map fst snd dget].
  destruct (String.eqb p q); [|exact IH]. clear IH. unfold cleanup_pool. rewrite <- !contains_spec. induction d as [|[j v] d IH].
  - cbn [filter dget]. split; reflexivity.
  - cbn [filter fst dget]. destruct IH as [I1 I2]. destruct (String.eqb_spec k j) as [E|E].
    + subst j. split.
      * intros H. assert (C : contains "_pfx" k || contains "_eui" k = true) by (apply orb_true_iff; exact H). rewrite C. cbn [negb]. apply I1. exact H.
      * intros A B. apply not_true_iff_false in A. apply not_true_iff_false in B. rewrite A, B. cbn [orb negb dget]. rewrite String.eqb_refl. reflexivity.
    + destruct (negb (contains "_pfx" j || contains "_eui" j)); [|split; assumption]. cbn [dget]. apply String.eqb_neq in E. rewrite E. split; assumption.
Qed.
Example cleanup_case : cleanup_topology [("lan", [("ipv4", VStr "a"); ("ipv4_pfx", VNull); ("_eui64", VNull)])] = [("lan", [("ipv4", VStr "a")])].
Proof. reflexivity. Qed.

(* ------------------------------------------------------------------ *)
(* C226: search paths                                                   *)

Section PathProps.
Variable search : list string -> list string.

Definition special (k : string) : Prop := exists r, k = ("files" ++ r)%string \/ k = ("tasks" ++ r)%string.

Lemma file_key_spec : forall k, file_key k = true <-> special k.
Proof.
  intros k. unfold file_key, special. rewrite orb_true_iff, !prefix_spec. split.
  - intros [[b E]|[b E]]; exists b; auto.
  - intros [r [E|E]]; [left|right]; exists r; exact E.
Qed.

(* a text without its line breaks *)
Definition stripped (s t : string) : Prop :=
  list_ascii_of_string t = filter (fun c => negb (Ascii.eqb c (ascii_of_nat 10))) (list_ascii_of_string s).

Lemma strip_spec : forall s, stripped s (no_newlines s).
Proof.
  unfold stripped. induction s as [|c s IH]; [reflexivity|]. cbn [no_newlines list_ascii_of_string filter].
  destruct (Ascii.eqb c (ascii_of_nat 10)); cbn [negb list_ascii_of_string]; [exact IH|rewrite IH; reflexivity].
Qed.

(* what python iterates over *)
Definition items (x : val) (l : list string) : Prop :=
  x = VList (map VStr l) \/ (exists s, x = VStr s /\ l = map (fun c => String c EmptyString) (list_ascii_of_string s)) \/ (exists d, x = VDict d /\ l = dkeys d).
Definition names (x y : val) : Prop := exists l l', items x l /\ Forall2 stripped l l' /\ y = VList (map VStr l').
Definition directories (x y : val) : Prop :=
  match x with
  | VStr s => y = VList (map VStr (search [s]))
  | VList _ => exists l, x = VList (map VStr l) /\ y = VList (map VStr (search l))
  | VDict e => exists t, y = VDict t /\ dkeys t = dkeys e
  | _ => y = x
  end.

Lemma texts_spec : forall l t, texts l = Some t <-> l = map VStr t.
Proof.
  induction l as [|v l IH]; intros t; cbn [texts].
  - split; [intros H; injection H as H; subst t; reflexivity|]. intros H. destruct t; [reflexivity|discriminate H].
  - destruct v as [|b|z|s|a|d]; try (split; [intros H; discriminate H|intros H; destruct t; discriminate H]).
    destruct (texts l) as [u|].
    + split.
      * intros H. injection H as H. subst t. cbn [map]. f_equal. apply IH. reflexivity.
      * intros H. destruct t as [|s' t]; [discriminate H|]. cbn [map] in H. injection H as H1 H2. subst s'. apply IH in H2. congruence.
    + split; [intros H; discriminate H|]. intros H. destruct t as [|s' t]; [discriminate H|]. cbn [map] in H. injection H as H1 H2. apply IH in H2. discriminate H2.
Qed.

Lemma Forall2_strip : forall l, Forall2 stripped l (map no_newlines l).
Proof. induction l as [|s l IH]; constructor; [apply strip_spec|exact IH]. Qed.

Lemma file_names_spec : forall x y, file_names x = Some y -> names x y.
Proof.
  intros x y H. unfold file_names, vtexts in H. destruct x as [|b|z|s|l|d]; try discriminate H.
  - injection H as H. subst y. exists (chars s), (map no_newlines (chars s)). split; [right; left; exists s; split; reflexivity|]. split; [apply Forall2_strip|reflexivity].
  - destruct (texts l) as [t|] eqn:T; [|discriminate H]. injection H as H. subst y. apply texts_spec in T. subst l.
    exists t, (map no_newlines t). split; [left; reflexivity|]. split; [apply Forall2_strip|reflexivity].
  - injection H as H. subst y. exists (dkeys d), (map no_newlines (dkeys d)). split; [right; right; exists d; split; reflexivity|]. split; [apply Forall2_strip|reflexivity].
Qed.

Definition entry_value (k : string) (x : val) : option val := if file_key k then file_names x else absolute search x.

Lemma absolute_dict : forall d,
  (forall w, absolute search (VDict d) = Some w -> exists t, w = VDict t /\ dkeys t = dkeys d
     /\ forall k x, dget k d = Some x -> exists y, dget k t = Some y /\ entry_value k x = Some y)
  /\ (absolute search (VDict d) = None <-> exists k x, In (k, x) d /\ entry_value k x = None).
Proof.
  intros d. cbn [absolute].
  set (go := fix go (d : list (string * val)) : option (list (string * val)) :=
               match d with
               | [] => Some []
               | (k, x) :: r => match (if file_key k then file_names x else absolute search x), go r with Some y, Some t => Some ((k, y) :: t) | _, _ => None end
               end).
  assert (G : (forall t, go d = Some t -> dkeys t = dkeys d /\ forall k x, dget k d = Some x -> exists y, dget k t = Some y /\ entry_value k x = Some y)
              /\ (go d = None <-> exists k x, In (k, x) d /\ entry_value k x = None)).
  { induction d as [|[k x] r [IH1 IH2]].
    - split; [intros t H; injection H as H; subst t; split; [reflexivity|intros k x Q; discriminate Q]|].
      split; [intros H; discriminate H|intros [k [x [[] _]]]].
    - assert (E : go ((k, x) :: r) = match entry_value k x, go r with Some y, Some t => Some ((k, y) :: t) | _, _ => None end) by reflexivity.
      rewrite E. destruct (entry_value k x) as [y|] eqn:V; [destruct (go r) as [t|] eqn:R|].
      + split.
        * intros t' H. injection H as H. subst t'. destruct (IH1 t eq_refl) as [K A]. split; [unfold dkeys in *; cbn [map fst]; rewrite K; reflexivity|].
          intros j z. cbn [dget]. destruct (String.eqb_spec j k) as [J|J]; [|apply A]. intros Q. injection Q as Q. subst z j. exists y. split; [reflexivity|exact V].
        * split; [intros H; discriminate H|]. intros [j [z [[Q|Q] N]]]; [injection Q as Q1 Q2; subst j z; congruence|].
          assert (X : Some t = None) by (apply IH2; exists j, z; auto). discriminate X.
      + split; [intros t' H; discriminate H|]. split; [intros _|reflexivity]. destruct (proj1 IH2 eq_refl) as [j [z [I N]]]. exists j, z. split; [right; exact I|exact N].
      + split; [intros t' H; discriminate H|]. split; [intros _|reflexivity]. exists k, x. split; [left; reflexivity|exact V]. }
  destruct G as [G1 G2]. destruct (go d) as [t|].
  - split.
    + intros w H. injection H as H. subst w. exists t. split; [reflexivity|]. apply G1. reflexivity.
    + split; [intros H; discriminate H|]. intros H. apply G2 in H. discriminate H.
  - split; [intros w H; discriminate H|]. split; [intros _; apply G2; reflexivity|reflexivity].
Qed.

Lemma absolute_dirs : forall x y, absolute search x = Some y -> directories x y.
Proof.
  intros x y H. destruct x as [|b|z|s|l|d].
  1,2,3: injection H as H; subst y; reflexivity.
  - injection H as H. subst y. reflexivity.
  - cbn [absolute] in H. destruct (texts l) as [t|] eqn:T; [|discriminate H]. injection H as H. subst y. apply texts_spec in T. subst l. exists t. split; reflexivity.
  - destruct (absolute_dict d) as [A _]. destruct (A y H) as [t [E [K _]]]. exists t. split; assumption.
Qed.

Definition plain (p : list string) : Prop := forall j, In j p -> ~ special j.

Theorem paths_exact : forall p d out k x, absolute search (VDict d) = Some out -> plain p -> lookup (p ++ [k]) (VDict d) = Some x ->
  exists y, lookup (p ++ [k]) out = Some y /\ (special k -> names x y) /\ (~ special k -> directories x y).
Proof.
  induction p as [|j p IH]; intros d out k x H PL L.
  - cbn [app lookup] in L. destruct (dget k d) as [z|] eqn:G; [|discriminate L]. injection L as L. subst z.
    destruct (absolute_dict d) as [A _]. destruct (A out H) as [t [E [_ V]]]. subst out. destruct (V k x G) as [y [GY EV]].
    exists y. split; [cbn [app lookup]; rewrite GY; reflexivity|]. unfold entry_value in EV. split; intros S.
    + apply file_key_spec in S. rewrite S in EV. apply file_names_spec. exact EV.
    + rewrite <- file_key_spec in S. apply not_true_iff_false in S. rewrite S in EV. apply absolute_dirs. exact EV.
  - cbn [app lookup] in L. destruct (dget j d) as [z|] eqn:G; [|discriminate L].
    destruct (absolute_dict d) as [A _]. destruct (A out H) as [t [E [_ V]]]. subst out. destruct (V j z G) as [y [GY EV]].
    assert (NS : file_key j = false). { apply not_true_iff_false. rewrite file_key_spec. apply PL. left. reflexivity. }
    unfold entry_value in EV. rewrite NS in EV. cbn [app lookup]. rewrite GY.
    destruct z as [|b|n|s|l|e]; try (destruct p; discriminate L).
    apply (IH e y k x EV); [|exact L]. intros i I. apply PL. right. exact I.
Qed.

(* values that make the conversion fail *)
Definition not_texts (x : val) : Prop := exists l, x = VList l /\ forall t, l <> map VStr t.
Definition not_iterable (x : val) : Prop := x = VNull \/ (exists b, x = VBool b) \/ exists n, x = VInt n.

Lemma texts_None : forall l, texts l = None <-> forall t, l <> map VStr t.
Proof.
  intros l. destruct (texts l) as [t|] eqn:T.
  - split; [intros H; discriminate H|]. intros H. apply texts_spec in T. exfalso. exact (H t T).
  - split; [|reflexivity]. intros _ t E. apply texts_spec in E. congruence.
Qed.

Lemma names_None : forall x, file_names x = None <-> not_texts x \/ not_iterable x.
Proof.
  intros x. unfold file_names, not_texts, not_iterable. destruct x as [|b|z|s|l|d].
  - split; [intros _; right; left; reflexivity|reflexivity].
  - split; [intros _; right; right; left; exists b; reflexivity|reflexivity].
  - split; [intros _; right; right; right; exists z; reflexivity|reflexivity].
  - split; [intros H; discriminate H|intros [[l [E _]]|[E|[[b E]|[n E]]]]; discriminate E].
  - pose proof (texts_None l) as T. destruct (texts l) as [t|].
    + split; [intros H; discriminate H|]. intros [[l' [E N]]|[E|[[b E]|[n E]]]]; try discriminate E. injection E as E. subst l'. apply T in N. discriminate N.
    + split; [|reflexivity]. intros _. left. exists l. split; [reflexivity|]. apply T. reflexivity.
  - split; [intros H; discriminate H|intros [[l [E _]]|[E|[[b E]|[n E]]]]; discriminate E].
Qed.

Theorem paths_fail_exact : forall v d, v = VDict d -> wf v ->
  (absolute search v = None <-> exists p k x, plain p /\ lookup (p ++ [k]) v = Some x
     /\ (special k /\ (not_texts x \/ not_iterable x) \/ ~ special k /\ not_texts x)).
Proof.
  induction v as [v ND0|d0 IH] using val_ind2; intros d E W; [subst v; discriminate ND0|]. injection E as E. subst d0.
  destruct (absolute_dict d) as [_ A]. rewrite A. pose proof (proj1 (wf_VDict d) W) as [ND WD]. split.
  - intros [k [x [I N]]]. pose proof (dget_NoDup _ _ _ ND I) as G. unfold entry_value in N. destruct (file_key k) eqn:F.
    + apply file_key_spec in F. apply names_None in N. exists [], k, x. split; [intros j []|]. split; [cbn [app lookup]; rewrite G; reflexivity|]. left. split; assumption.
    + assert (NS : ~ special k) by (rewrite <- file_key_spec; congruence). destruct x as [|b|z|s|l|e]; try discriminate N.
      * cbn [absolute] in N. destruct (texts l) as [t|] eqn:T; [discriminate N|]. exists [], k, (VList l). split; [intros j []|].
        split; [cbn [app lookup]; rewrite G; reflexivity|]. right. split; [exact NS|]. exists l. split; [reflexivity|]. apply texts_None. exact T.
      * apply (IH k (VDict e) I e eq_refl (WD _ _ I)) in N. destruct N as [p [j [x [P [L Q]]]]]. exists (k :: p), j, x. split; [|split; [|exact Q]].
        -- intros i [J|J]; [subst i; exact NS|exact (P i J)].
        -- cbn [app lookup]. rewrite G. exact L.
  - intros [p [k [x [P [L Q]]]]]. destruct p as [|j p].
    + cbn [app lookup] in L. destruct (dget k d) as [z|] eqn:G; [|discriminate L]. injection L as L. subst z. exists k, x. split; [exact (dget_In _ _ G)|].
      unfold entry_value. destruct Q as [[S B]|[S B]].
      * apply file_key_spec in S. rewrite S. apply names_None. exact B.
      * rewrite <- file_key_spec in S. apply not_true_iff_false in S. rewrite S. destruct B as [l [E N]]. subst x. cbn [absolute]. apply texts_None in N. rewrite N. reflexivity.
    + cbn [app lookup] in L. destruct (dget j d) as [z|] eqn:G; [|discriminate L]. pose proof (dget_In _ _ G) as I. exists j, z. split; [exact I|].
      assert (NS : file_key j = false). { apply not_true_iff_false. rewrite file_key_spec. apply P. left. reflexivity. }
      unfold entry_value. rewrite NS. destruct z as [|b|n|s|l|e]; try (destruct p; discriminate L).
      apply (IH j (VDict e) I e eq_refl (WD _ _ I)). exists p, k, x. split; [intros i J; apply P; right; exact J|]. split; assumption.
Qed.

(* a single file name is taken apart into characters, although a single directory is accepted *)
Theorem single_file_name_refuted :
  absolute search (VDict [("files", VStr "a.j2")]) = Some (VDict [("files", VList [VStr "a"; VStr "."; VStr "j"; VStr "2"])])
  /\ absolute search (VDict [("dirs", VStr "x")]) = Some (VDict [("dirs", VList (map VStr (search ["x"])))]).
Proof. split; reflexivity. Qed.
End PathProps.

Example paths_case : let d := [("custom", VDict [("dirs", VList [VStr "a"; VStr "b"]); ("files_x", VList [VStr ("f" ++ String (ascii_of_nat 10) "g")]); ("n", VInt 3)])] in
  absolute (fun l => map (fun s => ("/" ++ s)%string) l) (VDict d) =
    Some (VDict [("custom", VDict [("dirs", VList [VStr "/a"; VStr "/b"]); ("files_x", VList [VStr "fg"]); ("n", VInt 3)])])
  /\ wf (VDict d) /\ absolute (fun l => l) (VDict [("tasks", VInt 1)]) = None /\ plain ["custom"].
Proof.
  cbv zeta. split; [reflexivity|]. split; [cbn; repeat split; repeat constructor; cbn; intuition discriminate|]. split; [reflexivity|].
  intros j [E|[]] [r [H|H]]; subst j; discriminate H.
Qed.

Print Assumptions pool_prefix_exact.
Print Assumptions setup_pools_exact.
Print Assumptions setup_pools_names.
Print Assumptions legacy_pools_exact.
Print Assumptions setup_pools_errors.
Print Assumptions pool_normalized_once.
Print Assumptions ipv6_only_pool_refuted.
Print Assumptions pool_cleanup_exact.
Print Assumptions paths_exact.
Print Assumptions paths_fail_exact.
Print Assumptions single_file_name_refuted.
