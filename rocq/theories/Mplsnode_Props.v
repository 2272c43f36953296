(* Properties C127-C130, continued: errors of the MPLS parameters and the result of all MPLS steps on a node. *)
From Coq Require Import String ZArith Lia Bool List.
From Verif Require Import Base Box_Model Mpls_Model Mpls_Props Mplsbgp_Props.
Import ListNotations.
Local Open Scope string_scope.
Local Open Scope list_scope.

(* ---------- errors of the parameters ---------- *)

Definition scalar (v : val) : Prop := (forall l, v <> VList l) /\ (forall d, v <> VDict d).

(* the value of address family [af] is a dictionary, and the address families before it are usable *)
Definition bad_family (v : val) (af : string) : Prop :=
  exists d x, v = VDict d /\ dget af d = Some (VDict x) /\
  (af = "ipv4" \/ (af = "ipv6" /\ forall y, dget "ipv4" d = Some y -> elems y <> [])).

Lemma validate_errors : forall f n v n' ok e, dget f (mn_mpls n) = Some v -> validate_param f n = (n', ok, e) ->
  (In (EParam f) e <-> scalar v) /\ (forall af, In (EAfType f af) e <-> bad_family v af).
Proof.
  intros f n v n' ok e G H. unfold validate_param in H. rewrite G in H.
  assert (BN : (forall d, v <> VDict d) -> forall af, ~ bad_family v af) by (intros Q af [d [x [E _]]]; eapply Q; eauto).
  assert (SE : forall f l, ~ In (EParam f) (session_errs f l) /\ forall af, ~ In (EAfType f af) (session_errs f l)).
  { intros g l. unfold session_errs. destruct (forallb _ _).
    - split; [intros []|intros af []].
    - split; [|intros af]; intros [X|[]]; discriminate X. }
  destruct v as [|b|z|s|l|d];
    try (injection H as <- <- <-; split;
      [split; [intros _; split; intros; discriminate|intros _; left; auto]
      |intros af; split; [intros [X|[]]; discriminate X|intros B; exfalso; revert B; apply BN; intros; discriminate]]).
  - assert (NS : ~ scalar (VList l)) by (intros [Q _]; eapply Q; eauto).
    assert (E : e = [] \/ e = session_errs f l) by (destruct l; injection H as <- <- <-; auto).
    assert (NB : forall af, ~ bad_family (VList l) af) by (apply BN; intros; discriminate).
    split; [|intros af]; (split; [|intros Q; exfalso]).
    + intros I. exfalso. destruct E as [->| ->]; [destruct I|]. apply (proj1 (SE f l) I).
    + contradiction.
    + intros I. exfalso. destruct E as [->| ->]; [destruct I|]. apply (proj2 (SE f l) af I).
    + eapply NB; eauto.
  - destruct (validate_afs f AF_LIST d) as [[d' ok'] e'] eqn:V. injection H as <- <- <-.
    destruct (validate_afs_spec _ _ _ _ _ _ AF_NoDup V) as [_ [_ [_ [_ S5]]]].
    split.
    + split; [|intros [_ Q]; exfalso; eapply Q; eauto]. intros I. destruct (S5 _ I) as [X|[af X]]; discriminate X.
    + clear S5. unfold AF_LIST in V.
      assert (F6 : forall d2 d3 ok3 e3, dget "ipv6" d2 = dget "ipv6" d -> validate_afs f ["ipv6"] d2 = (d3, ok3, e3) ->
        forall af, In (EAfType f af) e3 <-> af = "ipv6" /\ exists x, dget "ipv6" d = Some (VDict x)).
      { intros d2 d3 ok3 e3 Q W af. cbn [validate_afs] in W. rewrite Q in W. destruct (dget "ipv6" d) as [y|].
        - destruct (is_dict y) eqn:ID.
          + destruct y; try discriminate ID. injection W as <- <- <-. split.
            * intros [X|[]]. injection X as <-. split; [auto|]. eauto.
            * intros [-> _]. left. auto.
          + assert (NI : ~ In (EAfType f af) e3).
            { assert (W' : match elems y with [] => (dset "ipv6" (VList (elems y)) d2, false, [])
                | _ :: _ => (dset "ipv6" (VList (elems y)) d2, true, session_errs f (elems y) ++ []) end = (d3, ok3, e3)).
              { destruct y; try discriminate ID; exact W. }
              destruct (elems y) as [|u us] eqn:EL; injection W' as <- <- <-; [intros []|]. rewrite app_nil_r. apply SE. }
            split; [contradiction|]. intros [_ [x X]]. injection X as ->. discriminate ID.
        - injection W as <- <- <-. split; [intros []|intros [_ [x X]]; discriminate X]. }
      intros af. cbn [validate_afs] in V. change (fix validate_afs (feature : string) (afs : list string) (d : dict val) {struct afs} : dict val * bool * list merr := _) with validate_afs in V.
      destruct (dget "ipv4" d) as [y|] eqn:G4.
      * destruct (is_dict y) eqn:ID.
        -- destruct y; try discriminate ID. injection V as <- <- <-. split.
           ++ intros [X|[]]. injection X as <-. exists d, d0. split; [auto|]. split; [auto|]. auto.
           ++ intros [d1 [x [E [X [->|[-> Q]]]]]]; [left; auto|]. injection E as <-. exfalso. apply (Q _ G4). auto.
        -- assert (V' : match elems y with [] => (dset "ipv4" (VList (elems y)) d, false, [])
             | _ :: _ => match validate_afs f ["ipv6"] (dset "ipv4" (VList (elems y)) d) with (d2, ok, e) => (d2, ok, session_errs f (elems y) ++ e) end end = (d', ok', e')).
           { destruct y; try discriminate ID; exact V. } clear V.
           assert (N4 : forall d1 x, VDict d = VDict d1 -> dget "ipv4" d1 = Some (VDict x) -> False).
           { intros d1 x E X. injection E as <-. rewrite G4 in X. injection X as ->. discriminate ID. }
           destruct (elems y) as [|z zs] eqn:EL.
           ++ injection V' as <- <- <-. split; [intros []|]. intros [d1 [x [E [X [->|[-> Q]]]]]]; [eapply N4; eauto|].
              injection E as <-. apply (Q _ G4). auto.
           ++ rewrite <- EL in V'. destruct (validate_afs f ["ipv6"] (dset "ipv4" (VList (elems y)) d)) as [[d2 ok2] e2] eqn:W. injection V' as <- <- <-.
              rewrite in_app_iff. assert (OT : dget "ipv6" (dset "ipv4" (VList (elems y)) d) = dget "ipv6" d) by (apply dget_dset_other; discriminate).
              rewrite (F6 _ _ _ _ OT W). split.
              ** intros [I|[-> [x X]]]; [exfalso; eapply (proj2 (SE f _)); eauto|]. exists d, x. split; [auto|]. split; [auto|]. right. split; [auto|].
                 intros y' Y. rewrite G4 in Y. injection Y as <-. rewrite EL. discriminate.
              ** intros [d1 [x [E [X [->|[-> Q]]]]]]; [exfalso; eapply N4; eauto|]. injection E as <-. right. split; [auto|]. eauto.
      * rewrite (F6 _ _ _ _ eq_refl V). split.
        -- intros [-> [x X]]. exists d, x. split; [auto|]. split; [auto|]. right. split; [auto|]. intros y Y. congruence.
        -- intros [d1 [x [E [X [->|[-> Q]]]]]]; injection E as <-; [congruence|]. split; [auto|]. eauto.
Qed.

(* The type errors of the mpls.bgp and mpls.vpn parameters. *)
Theorem mpls_parameter_errors : forall n v n' e,
  (dget "bgp" (mn_mpls n) = Some v -> node_adjust_bgplu n = (n', e) ->
     (In (EParam "bgp") e <-> scalar v) /\ (forall af, In (EAfType "bgp" af) e <-> bad_family v af)) /\
  (dget "vpn" (mn_mpls n) = Some v -> node_adjust_mplsvpn n = (n', e) ->
     (In (EParam "vpn") e <-> scalar v) /\ (forall af, In (EAfType "vpn" af) e <-> bad_family v af)).
Proof.
  intros n v n' e. split; intros G H.
  - unfold node_adjust_bgplu in H. destruct (validate_param "bgp" n) as [[n1 ok] e1] eqn:V.
    assert (E : e1 = e) by (destruct ok; injection H as <- <-; auto). subst e1. eapply validate_errors; eauto.
  - unfold node_adjust_mplsvpn in H. destruct (validate_param "vpn" n) as [[n1 ok] e1] eqn:V.
    assert (E : e1 = e) by (destruct ok; injection H as <- <-; auto). subst e1. eapply validate_errors; eauto.
Qed.

(* The errors of the 6PE parameter on a node with usable or missing labeled unicast. *)
Theorem sixpe_errors : forall peer n n' e, node_adjust_6pe peer n = (n', e) ->
  (forall v, dget "bgp" (mn_mpls n) = Some v -> usable v) ->
  (In ESixNoIpv4 e <-> mn_bgp4 n = false) /\
  (In ESixLabeled e <-> mn_bgp4 n = true /\ exists v, dget "bgp" (mn_mpls n) = Some v /\ af_values (mn_af n) v "ipv6" <> None).
Proof.
  intros peer n n' e H U. unfold node_adjust_6pe in H. destruct (validate_param "bgp" n) as [[n1 ok] e1] eqn:V.
  assert (K : ok = true /\ mn_bgp4 n1 = mn_bgp4 n /\
    (dmem "ipv6" (sub_attrs "bgp" n1) = true <-> exists v, dget "bgp" (mn_mpls n) = Some v /\ af_values (mn_af n) v "ipv6" <> None)).
  { destruct (dget "bgp" (mn_mpls n)) as [v|] eqn:G.
    - destruct (validate_spec _ _ _ _ _ _ G V) as [S1 [S2 [_ [_ [_ [_ [S5 _]]]]]]].
      assert (O : ok = true) by (apply S1; auto). split; [auto|]. split; [auto|]. unfold dmem. rewrite (S2 O "ipv6"); [|cbn; auto].
      destruct (af_values (mn_af n) v "ipv6") eqn:A; split; try discriminate; auto.
      + intros _. exists v. split; [auto|]. rewrite A. discriminate.
      + intros [w [E Q]]. injection E as <-. congruence.
    - unfold validate_param in V. rewrite G in V. injection V as <- <- <-. split; [auto|]. split; [auto|]. unfold sub_attrs. cbn [set_mpls mn_mpls].
      rewrite dget_dset_same. cbn. split; [discriminate|]. intros [v [E _]]. discriminate. }
  destruct K as [-> [K1 K2]].
  assert (N1 : ~ In ESixNoIpv4 e1) by (intros I; destruct (validate_errs _ _ _ _ _ _ V I) as [X|[X|[af X]]]; discriminate X).
  assert (N2 : ~ In ESixLabeled e1) by (intros I; destruct (validate_errs _ _ _ _ _ _ V I) as [X|[X|[af X]]]; discriminate X).
  rewrite K1 in H. destruct (mn_bgp4 n); cbn [negb] in H.
  - destruct (dmem "ipv6" (sub_attrs "bgp" n1)); injection H as <- <-; rewrite ?in_app_iff.
    + split; [split; [|discriminate]|split; [|intros _; right; left; auto]].
      * intros [I|[I|[]]]; [contradiction|discriminate].
      * intros _. split; [auto|]. apply K2. auto.
    + split; [split; [contradiction|discriminate]|split; [contradiction|]]. intros [_ Q]. apply K2 in Q. discriminate.
  - injection H as <- <-. rewrite !in_app_iff. split; [split; [auto|intros _; right; left; auto]|split; [|intros [Q _]; discriminate]].
    intros [I|[I|[]]]; [contradiction|discriminate].
Qed.

(* ---------- all steps on a node ---------- *)

(* the final state of a neighbor *)
Definition mpls_neighbor (n : mnode) (peer : string -> val) (vb vv vs : val) (g g' : mngb) : Prop :=
  (mg_label4 g' = true <-> mg_v4 g <> None /\ session_on (mn_af n) vb "ipv4" (mg_type g)) /\
  mg_label6 g' = false /\
  (mg_vpn4 g' <> None <-> mg_v4 g <> None /\ vpn_on n vv "ipv4") /\
  (mg_vpn6 g' <> None <-> mg_v4 g <> None /\ vpn_on n vv "ipv6") /\
  (mg_6pe g' = true <-> mg_v4 g <> None /\ lists vs (mg_type g)) /\
  (mg_v6 g' = None <-> mg_v6 g = None \/ (mg_6pe g' = true /\ lists (peer (mg_name g)) (mg_type g))) /\
  mg_name g' = mg_name g /\ mg_type g' = mg_type g /\ mg_v4 g' = mg_v4 g.

Lemma Forall2_nth : forall A B (R : A -> B -> Prop) l l', Forall2 R l l' -> length l = length l' /\
  forall k x y, nth_error l k = Some x -> nth_error l' k = Some y -> R x y.
Proof.
  intros A B R l l' F. split; [eapply Forall2_length; eauto|]. induction F as [|u w l l' U F IH]; intros [|k] x y X Y; cbn in X, Y; try discriminate.
  - injection X as <-. injection Y as <-. auto.
  - eapply IH; eauto.
Qed.

Lemma Forall2_of_nth : forall A B (R : A -> B -> Prop) (l : list A) (l' : list B), length l = length l' ->
  (forall k x y, nth_error l k = Some x -> nth_error l' k = Some y -> R x y) -> Forall2 R l l'.
Proof.
  intros A B R. induction l as [|x l IH]; intros [|y l'] L H; try discriminate; constructor.
  - apply (H 0 x y); reflexivity.
  - apply IH; [injection L; auto|]. intros k. apply (H (S k)).
Qed.

(* With all three BGP features configured, every neighbor gets the labels, VPN address families and 6PE
   according to the original settings. *)
Theorem mpls_neighbors_exact : forall fs csc running peer n n' e vb vv vs,
  dget "ldp" (mn_mpls n) = None -> dget "bgp" (mn_mpls n) = Some vb -> dget "vpn" (mn_mpls n) = Some vv -> dget "6pe" (mn_mpls n) = Some vs ->
  usable vb -> usable vv -> af_values (mn_af n) vb "ipv6" = None -> mn_bgp4 n = true ->
  Forall (fun g => mg_label4 g = false /\ mg_label6 g = false /\ mg_vpn4 g = None /\ mg_vpn6 g = None /\ mg_6pe g = false) (mn_ngbs n) ->
  node_post_transform fs csc running peer n = (Some n', e) ->
  Forall2 (mpls_neighbor n peer vb vv vs) (mn_ngbs n) (mn_ngbs n').
Proof.
  intros fs csc running peer n n' e vb vv vs GL GB GV GS UB UV A6 B4 F H. unfold node_post_transform in H.
  destruct (mn_mpls n) as [|kv m] eqn:M; [discriminate GB|]. rewrite <- M in *. clear M kv m.
  assert (D : forall k (d : dict val), dmem k d = match dget k d with Some _ => true | None => false end) by (intros; unfold dmem; destruct (dget k d); auto).
  rewrite D, GL in H. cbv beta iota in H. rewrite D, GB in H. cbv beta iota in H.
  destruct (node_adjust_bgplu n) as [n2 e2] eqn:E2.
  assert (F1 : Forall (fun g => mg_label4 g = false /\ mg_label6 g = false) (mn_ngbs n)) by (eapply Forall_impl; [|exact F]; intros a; cbn; tauto).
  destruct (labels_exact _ _ _ _ GB F1 E2) as [L1 _]. destruct (L1 UB) as [L2 _]. clear L1.
  assert (K2 : mn_af n2 = mn_af n /\ mn_bgp4 n2 = mn_bgp4 n /\ mn_rr n2 = mn_rr n /\ mn_vrfs n2 = mn_vrfs n /\
    exists d2, dget "bgp" (mn_mpls n2) = Some (VDict d2) /\ usable (VDict d2) /\ dget "ipv6" d2 = None).
  { unfold node_adjust_bgplu in E2. destruct (validate_param "bgp" n) as [[a ok] b] eqn:V.
    destruct (validate_spec _ _ _ _ _ _ GB V) as [S1 [S2 [_ [_ [_ [S3 [S4 [S5 [S6 [_ [_ [S7 _]]]]]]]]]]]].
    assert (O : ok = true) by (apply S1; auto). subst ok. injection E2 as <- <-. cbn [set_ngbs mn_af mn_bgp4 mn_rr mn_vrfs mn_mpls].
    repeat split; auto. specialize (S2 eq_refl). unfold sub_attrs in S2.
    assert (X : exists d2, dget "bgp" (mn_mpls a) = Some (VDict d2)).
    { clear - GB V UB. unfold validate_param in V. rewrite GB in V. destruct UB as [[l [-> N]]|[d [-> Q]]].
      - destruct l; [congruence|]. injection V as <- _. cbn [set_mpls mn_mpls]. rewrite dget_dset_same. eauto.
      - destruct (validate_afs "bgp" AF_LIST d) as [[d' ok'] e']. injection V as <- _ _. cbn [set_mpls mn_mpls]. rewrite dget_dset_same. eauto. }
    destruct X as [d2 X]. rewrite X in S2. exists d2. split; [auto|]. split.
    - right. exists d2. split; [auto|]. intros af x A Q. rewrite (S2 af A) in Q. destruct (af_values (mn_af n) vb af) as [l|] eqn:AV; [|discriminate].
      injection Q as <-. cbn [elems]. destruct UB as [[l' [-> N]]|[d [-> U]]].
      + cbn in AV. destruct (in_dec string_dec af (mn_af n)); [|discriminate]. injection AV as <-. auto.
      + cbn in AV. destruct (dget af d) as [y|] eqn:Y; [|discriminate]. injection AV as <-. eapply U; eauto.
    - rewrite (S2 "ipv6"); [|cbn; auto]. rewrite A6. auto. }
  destruct K2 as [KA [KB [KR [KV [d2 [KD [KU K6]]]]]]].
  assert (GV2 : dget "vpn" (mn_mpls n2) = Some vv) by (rewrite (bgplu_keeps _ _ _ E2); [auto|discriminate]).
  assert (GS2 : dget "6pe" (mn_mpls n2) = Some vs) by (rewrite (bgplu_keeps _ _ _ E2); [auto|discriminate]).
  rewrite D, GV2 in H. cbv beta iota in H. destruct (node_adjust_mplsvpn n2) as [n3 e3] eqn:E3.
  destruct (Forall2_nth _ _ _ _ _ L2) as [LN2 L3].
  assert (FW : forall (P Q : mngb -> Prop) (l l' : list mngb), length l = length l' -> Forall P l ->
    (forall k x y, nth_error l k = Some x -> nth_error l' k = Some y -> P x -> Q y) -> Forall Q l').
  { intros P Q l. induction l as [|x l IH]; intros [|y l'] LL FF HH; try discriminate; constructor.
    - inversion FF; subst. eapply (HH 0); reflexivity || auto. 
    - inversion FF; subst. apply IH; [injection LL; auto|auto|]. intros k. apply (HH (S k)). }
  assert (F2 : Forall (fun g => mg_vpn4 g = None /\ mg_vpn6 g = None) (mn_ngbs n2)).
  { eapply FW; [exact LN2|exact F|]. intros k x y X Y P. destruct (L3 k x y X Y) as [_ [_ [_ [_ [_ [_ [W4 [W6 _]]]]]]]]. cbn in P. rewrite W4, W6. tauto. }
  destruct (vpn_exact _ _ _ _ GV2 F2 E3) as [V1 _]. destruct (V1 UV) as [V2 _]. clear V1.
  destruct (Forall2_nth _ _ _ _ _ V2) as [LN3 V3].
  assert (KD3 : dget "bgp" (mn_mpls n3) = Some (VDict d2)) by (rewrite (vpn_keeps _ _ _ E3); [auto|discriminate]).
  assert (GS3 : dget "6pe" (mn_mpls n3) = Some vs) by (rewrite (vpn_keeps _ _ _ E3); [auto|discriminate]).
  assert (K3 : mn_af n3 = mn_af n2 /\ mn_bgp4 n3 = mn_bgp4 n2).
  { unfold node_adjust_mplsvpn in E3. destruct (validate_param "vpn" n2) as [[a ok] b] eqn:V.
    destruct (validate_spec _ _ _ _ _ _ GV2 V) as [_ [_ [_ [_ [_ [S3 [S4 _]]]]]]]. destruct ok; injection E3 as <- <-; auto. }
  destruct K3 as [KA3 KB3].
  rewrite D, GS3 in H. cbv beta iota in H. destruct (node_adjust_6pe peer n3) as [n4 e4] eqn:E4. injection H as <- _.
  assert (F3 : Forall (fun g => mg_6pe g = false) (mn_ngbs n3)).
  { eapply FW; [exact (eq_trans LN2 LN3)|exact F|]. intros k x z X Z P. destruct (nth_error (mn_ngbs n2) k) as [y|] eqn:Y.
    - destruct (L3 k x y X Y) as [_ [_ [_ [_ [_ [_ [_ [_ W]]]]]]]]. destruct (V3 k y z Y Z) as [_ [_ [_ [_ [_ [_ [_ [_ [_ [_ W']]]]]]]]]].
      cbn in P. rewrite W', W. tauto.
    - apply nth_error_None in Y. assert (k < length (mn_ngbs n)) by (apply nth_error_Some; congruence). lia. }
  destruct (sixpe_exact _ _ _ _ _ GS3 F3 E4) as [X1 _].
  assert (RD : mn_bgp4 n3 = true /\ six_ready n3).
  { split; [congruence|]. unfold six_ready. rewrite KD3. split; [auto|]. cbn. rewrite K6. auto. }
  specialize (X1 RD). destruct (Forall2_nth _ _ _ _ _ X1) as [LN4 X3].
  apply Forall2_of_nth; [congruence|]. intros k x w X W.
  assert (KL : k < length (mn_ngbs n)) by (apply nth_error_Some; congruence).
  destruct (nth_error (mn_ngbs n2) k) as [y|] eqn:Y; [|apply nth_error_None in Y; lia].
  destruct (nth_error (mn_ngbs n3) k) as [z|] eqn:Z; [|apply nth_error_None in Z; lia].
  destruct (L3 k x y X Y) as [P1 [P2 [P3 [P4 [P5 [P6 [P7 [P8 P9]]]]]]]].
  destruct (V3 k y z Y Z) as [Q1 [Q2 [_ [_ [Q3 [Q4 [Q5 [Q6 [Q7 [Q8 Q9]]]]]]]]]].
  destruct (X3 k z w Z W) as [R1 [R2 [_ [R3 [R4 [R5 [R6 [R7 [R8 R9]]]]]]]]].
  assert (VO : forall af, vpn_on n2 vv af <-> vpn_on n vv af) by (intros af; unfold vpn_on; rewrite KA, KR, KV; tauto).
  unfold mpls_neighbor. rewrite R6, R7, R8, R9, Q7, Q8. rewrite Q1, Q2, !VO. rewrite R1, R2, R1, R3, R4, R5, Q3, Q4, Q5, Q6, P3, P4, P5, P6.
  split; [exact P1|]. split; [|repeat (split; [reflexivity|]); reflexivity].
  destruct (mg_label6 y) eqn:L6; [|auto]. destruct (proj1 P2 eq_refl) as [_ [l [E _]]]. congruence.
Qed.

Definition full_node : mnode :=
  bgp_node [("bgp", VDict [("ipv4", strs ["ebgp"])]); ("vpn", strs ["ibgp"]); ("6pe", strs ["ibgp"])]
    [ngb "a" "ibgp" (Some (VStr "10.0.0.1")) (Some (VStr "::1")); ngb "b" "ebgp" (Some (VStr "10.0.0.2")) (Some (VStr "::2"))].

Example mpls_neighbors_example :
  match node_post_transform (fun _ => FOn) false (fun _ => false) (fun _ => strs ["ibgp"]) full_node with
  | (Some n', []) => map (fun g => (mg_label4 g, mg_6pe g, mg_v6 g)) (mn_ngbs n')
  | _ => []
  end = [(false, true, None); (true, false, Some (VStr "::2"))].
Proof. vm_compute. reflexivity. Qed.

(* Which settings exist after all steps; hence which missing features are reported. *)
Theorem mpls_features_reported : forall fs csc running peer n n' e, In "ipv4" (mn_af n) -> mn_mpls n <> [] ->
  node_post_transform fs csc running peer n = (Some n', e) ->
  (In (EFeature "bgp") e <-> fs "bgp" = FOff /\ (dget "bgp" (mn_mpls n) <> None \/ dget "6pe" (mn_mpls n) <> None)) /\
  (In (EFeature "vpn") e <-> fs "vpn" = FOff /\ dget "vpn" (mn_mpls n) <> None) /\
  (In (EFeature "6pe") e <-> fs "6pe" = FOff /\ dget "6pe" (mn_mpls n) <> None).
Proof.
  intros fs csc running peer n n' e A NE H. unfold node_post_transform in H. destruct (mn_mpls n) as [|kv m] eqn:M; [congruence|].
  rewrite <- M in *. clear M kv m NE.
  destruct (if dmem "ldp" (mn_mpls n) then node_adjust_ldp csc running n else (Some n, [])) as [[n1|] e1] eqn:E1; [|discriminate].
  assert (D : forall k (d : dict val), dmem k d = true <-> dget k d <> None) by (intros k d; unfold dmem; destruct (dget k d); split; congruence).
  assert (P1 : (forall k, k <> "ldp" -> dget k (mn_mpls n1) = dget k (mn_mpls n)) /\ forall f, ~ In (EFeature f) e1).
  { destruct (dmem "ldp" (mn_mpls n)).
    - unfold node_adjust_ldp in E1. apply memS_true in A. rewrite A in E1. cbn [negb] in E1.
      destruct (ldp_intfs csc running (mn_intfs n)) as [[l|] e0] eqn:L; [|discriminate]. injection E1 as <- <-. split.
      + intros k K. cbn [set_mpls mn_mpls]. apply dget_dpop_other. auto.
      + intros f. clear - L. revert l e0 L. induction (mn_intfs n) as [|i r IH]; intros l e0 L; cbn [ldp_intfs] in L; [injection L as <- <-; intros []|].
        destruct (ldp_intf csc running i) as [[i'|] a] eqn:LI; [|discriminate].
        destruct (ldp_intfs csc running r) as [[r'|] b] eqn:LR; [|discriminate]. injection L as <- <-. intros I. apply in_app_iff in I.
        destruct I as [I|I]; [|eapply IH; eauto]. unfold ldp_intf in LI.
        destruct (negb (mi_v4 i)); [injection LI as <- <-; destruct I|].
        destruct (mi_vrf i && _); [injection LI as <- <-; destruct I|].
        destruct (mi_vrf i && _); [injection LI as <- <-; destruct I as [I|[]]; discriminate I|].
        destruct (mi_flag i) as [[|]|]; destruct (String.eqb (mi_role i) "external"); try discriminate LI; injection LI as <- <-; destruct I.
    - injection E1 as <- <-. split; [auto|intros f []]. }
  destruct P1 as [P1 Q1].
  destruct (if dmem "bgp" (mn_mpls n1) then node_adjust_bgplu n1 else (n1, [])) as [n2 e2] eqn:E2.
  destruct (if dmem "vpn" (mn_mpls n2) then node_adjust_mplsvpn n2 else (n2, [])) as [n3 e3] eqn:E3.
  destruct (if dmem "6pe" (mn_mpls n3) then node_adjust_6pe peer n3 else (n3, [])) as [n4 e4] eqn:E4.
  injection H as <- <-.
  assert (VP : forall f n0 n0' ok e0, validate_param f n0 = (n0', ok, e0) -> dget f (mn_mpls n0') <> None).
  { intros f n0 n0' ok e0 V. destruct (dget f (mn_mpls n0)) as [v|] eqn:G; [eapply validate_spec; eauto|].
    unfold validate_param in V. rewrite G in V. injection V as <- _ _. cbn [set_mpls mn_mpls]. rewrite dget_dset_same. discriminate. }
  assert (P2 : (forall k, k <> "bgp" -> dget k (mn_mpls n2) = dget k (mn_mpls n1)) /\
     (dget "bgp" (mn_mpls n2) <> None <-> dget "bgp" (mn_mpls n1) <> None) /\ forall f, ~ In (EFeature f) e2).
  { destruct (dmem "bgp" (mn_mpls n1)) eqn:DB; [|injection E2 as <- <-; split; [auto|split; [tauto|intros f []]]].
    split; [apply (bgplu_keeps _ _ _ E2)|]. apply D in DB.
    unfold node_adjust_bgplu in E2. destruct (validate_param "bgp" n1) as [[a ok] b] eqn:V. split.
    - split; [auto|]. intros _. specialize (VP _ _ _ _ _ V). destruct ok; injection E2 as <- <-; exact VP.
    - intros f I. assert (J : In (EFeature f) b) by (destruct ok; injection E2 as <- <-; auto).
      destruct (validate_errs _ _ _ _ _ _ V J) as [X|[X|[af X]]]; discriminate X. }
  destruct P2 as [P2 [S2 Q2]].
  assert (P3 : (forall k, k <> "vpn" -> dget k (mn_mpls n3) = dget k (mn_mpls n2)) /\
     (dget "vpn" (mn_mpls n3) <> None <-> dget "vpn" (mn_mpls n2) <> None) /\ forall f, ~ In (EFeature f) e3).
  { destruct (dmem "vpn" (mn_mpls n2)) eqn:DB; [|injection E3 as <- <-; split; [auto|split; [tauto|intros f []]]].
    split; [apply (vpn_keeps _ _ _ E3)|]. apply D in DB.
    unfold node_adjust_mplsvpn in E3. destruct (validate_param "vpn" n2) as [[a ok] b] eqn:V. split.
    - split; [auto|]. intros _. specialize (VP _ _ _ _ _ V). destruct ok; injection E3 as <- <-; [|exact VP].
      cbn [set_ngbs set_mpls mn_mpls]. rewrite dget_dset_same. discriminate.
    - intros f I. assert (J : In (EFeature f) b) by (destruct ok; injection E3 as <- <-; auto).
      destruct (validate_errs _ _ _ _ _ _ V J) as [X|[X|[af X]]]; discriminate X. }
  destruct P3 as [P3 [S3 Q3]].
  assert (P4 : (forall k, k <> "bgp" -> dget k (mn_mpls n4) = dget k (mn_mpls n3)) /\
     (dget "bgp" (mn_mpls n4) <> None <-> dget "bgp" (mn_mpls n3) <> None \/ dget "6pe" (mn_mpls n3) <> None) /\ forall f, ~ In (EFeature f) e4).
  { destruct (dmem "6pe" (mn_mpls n3)) eqn:DB.
    2: { injection E4 as <- <-. split; [auto|split; [|intros f []]]. split; [auto|]. intros [Q|Q]; [auto|]. apply D in Q. congruence. }
    split; [apply (sixpe_keeps _ _ _ _ E4)|]. apply D in DB.
    unfold node_adjust_6pe in E4. destruct (validate_param "bgp" n3) as [[a ok] b] eqn:V. split.
    - split; [auto|]. intros _. specialize (VP _ _ _ _ _ V). destruct ok; [|injection E4 as <- <-; exact VP].
      destruct (negb (mn_bgp4 a)); [injection E4 as <- <-; exact VP|]. destruct (dmem "ipv6" (sub_attrs "bgp" a)); injection E4 as <- <-; exact VP.
    - intros f I. assert (J : In (EFeature f) b).
      { destruct ok; [|injection E4 as <- <-; auto]. destruct (negb (mn_bgp4 a)).
        - injection E4 as <- <-. apply in_app_iff in I. destruct I as [I|[I|[]]]; [auto|discriminate].
        - destruct (dmem "ipv6" (sub_attrs "bgp" a)); injection E4 as <- <-; [|auto].
          apply in_app_iff in I. destruct I as [I|[I|[]]]; [auto|discriminate]. }
      destruct (validate_errs _ _ _ _ _ _ V J) as [X|[X|[af X]]]; discriminate X. }
  destruct P4 as [P4 [S4 Q4]].
  assert (R : forall f, In f feature_names -> (In (EFeature f) (e1 ++ e2 ++ e3 ++ e4 ++ check_node_features fs (mn_mpls n4)) <-> fs f = FOff /\ dget f (mn_mpls n4) <> None)).
  { intros f FN. rewrite !in_app_iff. split.
    - intros [I|[I|[I|[I|I]]]]; try (exfalso; eapply Q1; eauto; fail); try (exfalso; eapply Q2; eauto; fail); try (exfalso; eapply Q3; eauto; fail); try (exfalso; eapply Q4; eauto; fail).
      apply features_exact in I. destruct I as [fn [v [_ [G [[X Y]|[v4 [v6 [d [_ [_ [[_ [_ X]]|[_ [_ X]]]]]]]]]]]]]; try discriminate X.
      injection Y as <-. split; [auto|congruence].
    - intros [X Y]. right. right. right. right. apply features_exact. destruct (dget f (mn_mpls n4)) as [v|] eqn:G; [|congruence].
      exists f, v. split; [auto|]. split; [auto|]. left. auto. }
  split; [|split].
  - rewrite R; [|cbn; auto]. rewrite S4, (P3 "bgp"), (P3 "6pe"), S2, (P2 "6pe"), !P1; try discriminate. reflexivity.
  - rewrite R; [|cbn; auto]. rewrite P4, S3, P2, P1; try discriminate. reflexivity.
  - rewrite R; [|cbn; auto]. rewrite P4, P3, P2, P1; try discriminate. reflexivity.
Qed.

Print Assumptions mpls_parameter_errors.
Print Assumptions sixpe_errors.
Print Assumptions mpls_neighbors_exact.
Print Assumptions mpls_features_reported.
