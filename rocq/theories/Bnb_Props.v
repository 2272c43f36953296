(* Properties of lab validation of BGP and IS-IS neighbors. *)
From Coq Require Import String Ascii ZArith Lia Bool List.
From Verif Require Import Base Mod_Model Bnb_Model Mod_Props.
Import ListNotations.
Local Open Scope string_scope.
Local Open Scope list_scope.

(* ------------------------------------------------------------------ *)
(* C247: BGP neighbors                                                  *)

(* [a] is the address of the first neighbor with the name and an address of the family *)
Definition address (ngb : list bngb) (id af : string) (a : naddr) : Prop :=
  exists pre n post, ngb = pre ++ n :: post /\ bn_name n = id /\ dget af (bn_af n) = Some a
    /\ forall m, In m pre -> bn_name m = id -> dget af (bn_af m) = None.

Lemma neighbor_id_spec : forall ngb id af, (forall a, neighbor_id ngb id af = Some a <-> address ngb id af a).
Proof.
  induction ngb as [|n r IH]; intros id af a; cbn [neighbor_id].
  { split; [discriminate|]. intros [pre [x [post [E _]]]]. destruct pre; discriminate E. }
  assert (SKIP : (bn_name n = id -> dget af (bn_af n) = None) -> (neighbor_id r id af = Some a <-> address (n :: r) id af a)).
  { intros N. rewrite IH. split.
    - intros [pre [x [post [E [H1 [H2 H3]]]]]]. exists (n :: pre), x, post. split; [rewrite E; reflexivity|]. split; [exact H1|]. split; [exact H2|]. intros m [M|M]; [subst m; exact N|apply H3; exact M].
    - intros [pre [x [post [E [H1 [H2 H3]]]]]]. destruct pre as [|y pre]; [injection E as E1 E2; subst x; rewrite (N H1) in H2; discriminate H2|]. injection E as E1 E2. exists pre, x, post. split; [exact E2|]. split; [exact H1|]. split; [exact H2|]. intros m M. apply H3. right. exact M. }
  destruct (String.eqb_spec (bn_name n) id) as [E|E]; cbn [negb]; [|apply SKIP; intros Q; contradiction].
  destruct (dget af (bn_af n)) as [b|] eqn:G; [|apply SKIP; intros _; reflexivity].
  split.
  - intros Q. injection Q as Q. subst b. exists [], n, r. split; [reflexivity|]. split; [exact E|]. split; [exact G|intros m []].
  - intros [pre [x [post [Q [H1 [H2 H3]]]]]]. destruct pre as [|y pre]; [injection Q as Q1 Q2; subst x; congruence|]. injection Q as Q1 Q2. subst y. rewrite (H3 n (or_introl eq_refl) E) in G. discriminate G.
Qed.

Definition accepts (w : wanted) (x : string) : Prop :=
  match w with WText s => occurs x s | WList l => In x l end.

Lemma in_state_spec : forall x w, in_state x w = true <-> accepts w x.
Proof. intros x [s|l]; [apply contains_spec|apply memS_true]. Qed.

Lemma is_missing_spec : forall w, is_missing w = true <-> w = WText "missing".
Proof. intros [s|l]; cbn [is_missing]; [rewrite String.eqb_eq; split; congruence|split; discriminate]. Qed.

(* key of a neighbor in the list of FRR peers *)
Definition frr_key (a : naddr) (intf k : string) : Prop := a = NText k \/ (a = NTrue /\ k = intf /\ intf <> "").

Definition family (af activate f : string) : Prop :=
  exists x, (activate = "" /\ x = af \/ activate <> "" /\ x = activate)
    /\ (x = "ipv4" /\ f = "ipv4Unicast" \/ x = "ipv6" /\ f = "ipv6Unicast" \/ x = "evpn" /\ f = "evpn").

Lemma family_spec : forall af activate f, dget (if String.eqb activate "" then af else activate) af_lookup = Some f <-> family af activate f.
Proof.
  intros af activate f. unfold family.
  assert (L : forall x, dget x af_lookup = Some f <-> (x = "ipv4" /\ f = "ipv4Unicast" \/ x = "ipv6" /\ f = "ipv6Unicast" \/ x = "evpn" /\ f = "evpn")).
  { intros x. unfold af_lookup. cbn [dget].
    destruct (String.eqb_spec x "ipv4") as [E|E]; [subst x; split; [intros Q; left; split; congruence|intros [[_ Q]|[[Q _]|[Q _]]]; [congruence|discriminate Q|discriminate Q]]|].
    destruct (String.eqb_spec x "ipv6") as [E2|E2]; [subst x; split; [intros Q; right; left; split; congruence|intros [[Q _]|[[_ Q]|[Q _]]]; [discriminate Q|congruence|discriminate Q]]|].
    destruct (String.eqb_spec x "evpn") as [E3|E3]; [subst x; split; [intros Q; right; right; split; congruence|intros [[Q _]|[[Q _]|[_ Q]]]; [discriminate Q|discriminate Q|congruence]]|].
    split; [discriminate|]. intros [[Q _]|[[Q _]|[Q _]]]; contradiction. }
  destruct (String.eqb_spec activate "") as [E|E]; rewrite L; split.
  - intros H. exists af. split; [left; auto|exact H].
  - intros [x [[[_ X]|[X _]] H]]; [subst x; exact H|contradiction].
  - intros H. exists activate. split; [right; auto|exact H].
  - intros [x [[[X _]|[_ X]] H]]; [contradiction|subst x; exact H].
Qed.

(* a neighbor on FRR is accepted when it is in an expected state, or not there and expected to be missing *)
Theorem frr_neighbor_exact : forall ngb id af w activate intf res,
  frr_neighbor ngb id af w activate intf res = true <->
  exists a k f peers, address ngb id af a /\ frr_key a intf k /\ family af activate f /\ dget f res = Some peers
    /\ ((dget k peers = None /\ w = WText "missing") \/ exists st, dget k peers = Some st /\ accepts w st).
Proof.
  intros ngb id af w activate intf res. unfold frr_neighbor.
  destruct (neighbor_id ngb id af) as [a|] eqn:A.
  2:{ split; [discriminate|]. intros [a [k [f [p [H _]]]]]. apply neighbor_id_spec in H. congruence. }
  assert (K : forall k, (match a with NText s => Some s | NTrue => if String.eqb intf "" then None else Some intf end) = Some k <-> frr_key a intf k).
  { intros k. unfold frr_key. destruct a as [s|].
    - split; [intros Q; left; congruence|intros [Q|[Q _]]; congruence].
    - destruct (String.eqb_spec intf "") as [E|E]; [split; [discriminate|intros [Q|[_ [_ Q]]]; [discriminate Q|contradiction]]|split; [intros Q; right; split; [reflexivity|split; congruence]|intros [Q|[_ [Q _]]]; [discriminate Q|congruence]]]. }
  assert (AD : forall b, address ngb id af b -> b = a) by (intros b B; apply neighbor_id_spec in B; congruence).
  apply neighbor_id_spec in A.
  destruct (match a with NText s => Some s | NTrue => if String.eqb intf "" then None else Some intf end) as [k|].
  2:{ split; [discriminate|]. intros [b [k [f [p [H1 [H2 _]]]]]]. apply AD in H1. subst b. apply K in H2. discriminate H2. }
  assert (KK : frr_key a intf k) by (apply K; reflexivity).
  assert (KU : forall x, frr_key a intf x -> x = k) by (intros x X; apply K in X; congruence).
  pose proof (family_spec af activate) as F. destruct (dget (if String.eqb activate "" then af else activate) af_lookup) as [f|].
  2:{ split; [discriminate|]. intros [b [x [f [p [_ [_ [H _]]]]]]]. apply F in H. discriminate H. }
  assert (FF : family af activate f) by (apply F; reflexivity).
  assert (FU : forall x, family af activate x -> x = f) by (intros x X; apply F in X; congruence).
  destruct (dget f res) as [peers|] eqn:R.
  2:{ split; [discriminate|]. intros [b [x [g [p [_ [_ [H [G _]]]]]]]]. apply FU in H. subst g. congruence. }
  split.
  - intros H. exists a, k, f, peers. split; [exact A|]. split; [exact KK|]. split; [exact FF|]. split; [exact R|].
    destruct (dget k peers) as [st|]; [right; exists st; split; [reflexivity|apply in_state_spec; exact H]|left; split; [reflexivity|apply is_missing_spec; exact H]].
  - intros [b [x [g [p [H1 [H2 [H3 [H4 H5]]]]]]]]. apply AD in H1. subst b. apply KU in H2. subst x. apply FU in H3. subst g. assert (p = peers) by congruence. subst p.
    destruct H5 as [[Q W]|[st [Q W]]]; rewrite Q; [apply is_missing_spec; exact W|apply in_state_spec; exact W].
Qed.

(* on EOS a neighbor that is there but not established is also missing *)
Theorem eos_neighbor_exact : forall ngb id af w peers,
  eos_neighbor ngb id af w peers = true <->
  exists a d, address ngb id af a /\ peers = Some d
    /\ (((forall k st, a = NText k -> dget k d <> Some st) /\ w = WText "missing")
        \/ exists k st, a = NText k /\ dget k d = Some st /\ (accepts w st \/ w = WText "missing" /\ st <> "Established")).
Proof.
  intros ngb id af w peers. unfold eos_neighbor. destruct (neighbor_id ngb id af) as [a|] eqn:A.
  2:{ split; [discriminate|]. intros [a [d [H _]]]. apply neighbor_id_spec in H. congruence. }
  assert (AD : forall b, address ngb id af b -> b = a) by (intros b B; apply neighbor_id_spec in B; congruence). apply neighbor_id_spec in A.
  destruct peers as [d|]; [|split; [discriminate|intros [b [d [_ [Q _]]]]; discriminate Q]].
  assert (NONE : (match a with NText s => dget s d | NTrue => None end) = None -> forall k st, a = NText k -> dget k d <> Some st) by (intros E k st Q; subst a; congruence).
  destruct (match a with NText s => dget s d | NTrue => None end) as [st|] eqn:G.
  - destruct a as [k|]; [|discriminate G]. split.
    + intros H. exists (NText k), d. split; [exact A|]. split; [reflexivity|]. right. exists k, st. split; [reflexivity|]. split; [exact G|].
      destruct (in_state st w) eqn:I; [left; apply in_state_spec; exact I|]. apply andb_true_iff in H. destruct H as [H1 H2]. right. split; [apply is_missing_spec; exact H1|]. apply negb_true_iff, String.eqb_neq in H2. exact H2.
    + intros [b [x [H1 [H2 H3]]]]. apply AD in H1. subst b. injection H2 as H2. subst x. destruct H3 as [[N _]|[k0 [s0 [Q [R W]]]]]; [exfalso; exact (N k st eq_refl G)|]. injection Q as Q. subst k0. assert (s0 = st) by congruence. subst s0.
      destruct (in_state st w) eqn:I; [reflexivity|]. destruct W as [W|[W1 W2]]; [apply in_state_spec in W; congruence|]. apply is_missing_spec in W1. rewrite W1. apply String.eqb_neq in W2. rewrite W2. reflexivity.
  - rewrite is_missing_spec. split.
    + intros W. exists a, d. split; [exact A|]. split; [reflexivity|]. left. split; [apply NONE; reflexivity|exact W].
    + intros [b [x [H1 [H2 H3]]]]. apply AD in H1. subst b. injection H2 as H2. subst x. destruct H3 as [[_ W]|[k [st [Q [R _]]]]]; [exact W|]. exfalso. exact (NONE eq_refl k st Q R).
Qed.

(* the two devices differ for a neighbor that is not established and should be missing *)
Theorem bgp_missing_refuted :
  let ngb := [mk_bn "r2" [("ipv4", NText "10.1.0.2")]] in
  frr_neighbor ngb "r2" "ipv4" (WText "missing") "" "" [("ipv4Unicast", [("10.1.0.2", "Idle")])] = false
  /\ eos_neighbor ngb "r2" "ipv4" (WText "missing") (Some [("10.1.0.2", "Idle")]) = true.
Proof. split; reflexivity. Qed.

Example bgp_neighbor_case :
  let ngb := [mk_bn "r1" [("ipv4", NText "10.1.0.1")]; mk_bn "r2" []; mk_bn "r2" [("ipv4", NTrue)]] in
  frr_neighbor ngb "r2" "ipv4" (WText "Established") "ipv6" "eth1" [("ipv6Unicast", [("eth1", "Established")])] = true
  /\ frr_neighbor ngb "r1" "ipv4" (WList ["Active"; "Idle"]) "" "" [("ipv4Unicast", [("10.1.0.1", "Established")])] = false
  /\ eos_neighbor ngb "r1" "ipv4" (WText "Established") (Some [("10.1.0.1", "Established")]) = true.
Proof. split; [reflexivity|split; reflexivity]. Qed.

(* ------------------------------------------------------------------ *)
(* C248: IS-IS neighbors                                                *)

(* requested values; an empty text requests nothing *)
Definition fits (state level area : string) (c : circuit) : Prop :=
  (state <> "" -> ci_state c = state) /\ (level <> "" -> ci_level c = Some level) /\ (area <> "" -> ci_area c = Some area).

Lemma circuit_ok_spec : forall state level area c, circuit_ok state level area c = true <-> fits state level area c.
Proof.
  intros state level area c. unfold circuit_ok, fits. cbv zeta.
  assert (S : forall w o, (if String.eqb w "" then true else match o with Some x => String.eqb x w | None => false end) = true <-> (w <> "" -> o = Some w)).
  { intros w o. destruct (String.eqb_spec w "") as [E|E]; [split; [intros _ Q; contradiction|reflexivity]|]. destruct o as [x|]; [rewrite String.eqb_eq; split; [intros Q _; congruence|intros Q; specialize (Q E); congruence]|split; [discriminate|intros Q; specialize (Q E); discriminate Q]]. }
  rewrite !andb_true_iff, !S. pose proof (S state (Some (ci_state c))) as S1. cbv iota in S1. rewrite S1. split.
  - intros [[H1 H2] H3]. split; [intros Q; specialize (H1 Q); congruence|]. split; assumption.
  - intros [H1 [H2 H3]]. split; [split; [intros Q; rewrite (H1 Q); reflexivity|exact H2]|exact H3].
Qed.

Lemma circuits_app : forall id present state level area l m, circuits id present state level area (l ++ m) = match circuits id present state level area l with Some b => Some b | None => circuits id present state level area m end.
Proof.
  intros id present state level area l m. induction l as [|c r IH]; [reflexivity|]. cbn [app circuits]. destruct (ci_adj c) as [a|]; [|exact IH]. destruct (negb (String.eqb a id)); [exact IH|]. destruct (negb present); reflexivity.
Qed.

Lemma areas_concat : forall id present state level area l,
  fold_left (fun acc a => match acc with Some b => Some b | None => circuits id present state level area a end) l None = circuits id present state level area (concat l).
Proof.
  intros id present state level area.
  assert (K : forall l b, fold_left (fun acc a => match acc with Some b => Some b | None => circuits id present state level area a end) l (Some b) = Some b) by (induction l as [|a r IH]; intros b; [reflexivity|apply IH]).
  induction l as [|a r IH]; [reflexivity|]. cbn [fold_left concat]. rewrite circuits_app. destruct (circuits id present state level area a); [apply K|exact IH].
Qed.

(* the first circuit of the neighbor in all areas decides; without areas there is no neighbor *)
Theorem isis_neighbor_exact : forall id state level area areas,
  let cs := match areas with Some l => concat l | None => [] end in
  (valid_isis_neighbor id true state level area areas = true <->
     exists pre c post, cs = pre ++ c :: post /\ ci_adj c = Some id /\ (forall x, In x pre -> ci_adj x <> Some id) /\ fits state level area c)
  /\ (valid_isis_neighbor id false state level area areas = true <-> forall x, In x cs -> ci_adj x <> Some id).
Proof.
  intros id state level area areas. cbv zeta.
  assert (V : forall p, valid_isis_neighbor id p state level area areas = match circuits id p state level area (match areas with Some l => concat l | None => [] end) with Some b => b | None => negb p end).
  { intros p. unfold valid_isis_neighbor. destruct areas as [l|]; [|reflexivity]. rewrite areas_concat. reflexivity. }
  rewrite !V. generalize (match areas with Some l => concat l | None => [] end). clear V areas. intros cs. induction cs as [|c r [IH1 IH2]].
  { cbn [circuits negb]. split; [split; [discriminate|intros [pre [c [post [E _]]]]; destruct pre; discriminate E]|split; [intros _ x []|reflexivity]]. }
  cbn [circuits negb].
  assert (SKIP : ci_adj c <> Some id ->
    ((match circuits id true state level area r with Some b => b | None => false end = true <-> exists pre x post, c :: r = pre ++ x :: post /\ ci_adj x = Some id /\ (forall y, In y pre -> ci_adj y <> Some id) /\ fits state level area x)
     /\ (match circuits id false state level area r with Some b => b | None => true end = true <-> forall x, In x (c :: r) -> ci_adj x <> Some id))).
  { intros N. split.
    - rewrite IH1. split.
      + intros [pre [x [post [E [H1 [H2 H3]]]]]]. exists (c :: pre), x, post. split; [rewrite E; reflexivity|]. split; [exact H1|]. split; [|exact H3]. intros y [Y|Y]; [subst y; exact N|apply H2; exact Y].
      + intros [pre [x [post [E [H1 [H2 H3]]]]]]. destruct pre as [|y pre]; [injection E as E1 E2; subst x; contradiction|]. injection E as E1 E2. exists pre, x, post. split; [exact E2|]. split; [exact H1|]. split; [|exact H3]. intros z Z. apply H2. right. exact Z.
    - rewrite IH2. split; [intros H x [X|X]; [subst x; exact N|apply H; exact X]|intros H x X; apply H; right; exact X]. }
  destruct (ci_adj c) as [a|] eqn:A; [|apply SKIP; discriminate]. destruct (String.eqb_spec a id) as [E|E]; cbn [negb]; [|apply SKIP; congruence]. subst a. split.
  - rewrite circuit_ok_spec. split.
    + intros F. exists [], c, r. split; [reflexivity|]. split; [exact A|]. split; [intros x []|exact F].
    + intros [pre [x [post [Q [H1 [H2 H3]]]]]]. destruct pre as [|y pre]; [injection Q as Q1 Q2; subst x; exact H3|]. injection Q as Q1 Q2. subst y. exfalso. exact (H2 c (or_introl eq_refl) A).
  - split; [discriminate|]. intros H. exfalso. exact (H c (or_introl eq_refl) A).
Qed.

(* a neighbor that fits on a later circuit is not accepted *)
Theorem isis_any_circuit_refuted :
  let c1 := mk_ci (Some "r2") "Initializing" (Some "L2") None in let c2 := mk_ci (Some "r2") "Up" (Some "L2") None in
  fits "Up" "L2" "" c2 /\ valid_isis_neighbor "r2" true "Up" "L2" "" (Some [[c1]; [c2]]) = false.
Proof. cbv zeta. split; [apply circuit_ok_spec; reflexivity|reflexivity]. Qed.

Example isis_neighbor_case :
  let c1 := mk_ci None "Down" None None in let c2 := mk_ci (Some "r2") "Up" (Some "L2") (Some "49.0001") in
  valid_isis_neighbor "r2" true "Up" "L2" "49.0001" (Some [[c1]; [c2]]) = true
  /\ valid_isis_neighbor "r2" true "Up" "L1" "" (Some [[c1]; [c2]]) = false
  /\ valid_isis_neighbor "r3" false "Up" "" "" (Some [[c1]; [c2]]) = true.
Proof. split; [reflexivity|split; reflexivity]. Qed.

Print Assumptions frr_neighbor_exact.
Print Assumptions eos_neighbor_exact.
Print Assumptions bgp_missing_refuted.
Print Assumptions isis_neighbor_exact.
Print Assumptions isis_any_circuit_refuted.
