(* Properties C127-C130: labeled BGP sessions, MPLS/VPN address families, 6PE and MPLS device features. *)
From Coq Require Import String ZArith Lia Bool List.
From Verif Require Import Base Box_Model Mpls_Model Mpls_Props.
Import ListNotations.
Local Open Scope string_scope.
Local Open Scope list_scope.

(* ---------- BGP parameters: specification ---------- *)

(* the values of a scalar or a list *)
Definition elems (v : val) : list val :=
  match v with VList l => l | VNull => [] | VDict _ => [] | x => [x] end.

(* the values set for address family [af] on a node with address families [afs] *)
Definition af_values (afs : list string) (v : val) (af : string) : option (list val) :=
  match v with
  | VList l => if in_dec string_dec af afs then Some l else None
  | VDict d => match dget af d with Some x => Some (elems x) | None => None end
  | _ => None
  end.

(* the parameter can be used: it is not empty, and it is not empty for any address family *)
Definition usable (v : val) : Prop :=
  (exists l, v = VList l /\ l <> []) \/
  (exists d, v = VDict d /\ forall af x, In af ["ipv4"; "ipv6"] -> dget af d = Some x -> elems x <> []).

(* a session type of the parameter that does not exist *)
Definition bad_session (afs : list string) (v : val) : Prop :=
  exists l x, In x l /\ x <> VStr "ibgp" /\ x <> VStr "ebgp" /\
    (v = VList l \/ exists af d, In af ["ipv4"; "ipv6"] /\ v = VDict d /\ exists y, dget af d = Some y /\ elems y = l).

(* ---------- proofs ---------- *)

Lemma session_errs_spec : forall f l, session_errs f l = [] <-> forall x, In x l -> x = VStr "ibgp" \/ x = VStr "ebgp".
Proof.
  intros f l. unfold session_errs. destruct (forallb is_session l) eqn:E.
  - split; auto. intros _ x I. rewrite forallb_forall in E. specialize (E x I). unfold is_session in E.
    destruct x; try discriminate. apply memS_true in E. destruct E as [<-|[<-|[]]]; auto.
  - split; [discriminate|]. intros H. exfalso. assert (X : forallb is_session l = true).
    { apply forallb_forall. intros x I. destruct (H x I) as [->| ->]; reflexivity. } congruence.
Qed.

Lemma in_val_spec : forall s l, in_val s (VList l) = true <-> In (VStr s) l.
Proof.
  intros s l. cbn. rewrite existsb_exists. split.
  - intros [x [I E]]. destruct x; try discriminate. apply String.eqb_eq in E. subst. auto.
  - intros I. exists (VStr s). split; [auto|]. apply String.eqb_refl.
Qed.

Lemma str_dec : forall x s, x = VStr s \/ x <> VStr s.
Proof. intros x s. destruct x; try (right; discriminate). destruct (string_dec s0 s); [left; congruence|right; congruence]. Qed.

Definition is_dict (v : val) : bool := match v with VDict _ => true | _ => false end.

(* the validation of the address families *)
Lemma validate_afs_spec : forall feature afs d d' ok e, NoDup afs -> validate_afs feature afs d = (d', ok, e) ->
  (ok = true <-> forall af x, In af afs -> dget af d = Some x -> elems x <> []) /\
  (ok = true -> forall af, In af afs -> match dget af d with
                                        | None => dget af d' = None
                                        | Some x => dget af d' = Some (VList (elems x))
                                        end) /\
  (forall k, ~ In k afs -> dget k d' = dget k d) /\
  (ok = true -> (e = [] <-> forall af x y, In af afs -> dget af d = Some x -> In y (elems x) -> y = VStr "ibgp" \/ y = VStr "ebgp")) /\
  (forall x, In x e -> x = ESession feature \/ exists af, x = EAfType feature af).
Proof.
  intros feature. induction afs as [|af r IH]; intros d d' ok e N H; cbn [validate_afs] in H.
  - injection H as <- <- <-. repeat split; auto; try (intros; contradiction).
  - inversion N as [|z l NI N']; subst. destruct (dget af d) as [v|] eqn:G.
    + destruct (is_dict v) eqn:ID.
      { destruct v; try discriminate ID. injection H as <- <- <-. split.
        - split; [discriminate|]. intros Q. exfalso. apply (Q af (VDict d0)); [left; auto|auto|auto].
        - split; [discriminate|]. split; [auto|]. split; [discriminate|]. intros x [<-|[]]. right. eauto. }
      assert (H' : let l := elems v in let d1 := dset af (VList l) d in
        match l with [] => (d1, false, []) | _ :: _ => match validate_afs feature r d1 with (d2, ok, e) => (d2, ok, session_errs feature l ++ e) end end = (d', ok, e)).
      { destruct v; try discriminate ID; exact H. } clear H. cbv zeta in H'.
      destruct (elems v) as [|y ys] eqn:EL.
      { injection H' as <- <- <-. split.
        - split; [discriminate|]. intros Q. exfalso. apply (Q af v); [left; auto|auto|auto].
        - split; [discriminate|]. split; [|split; [discriminate|intros x []]]. intros k K. apply dget_dset_other. intros ->. apply K. left. auto. }
      rewrite <- EL in H'. set (dd := dset af (VList (elems v)) d) in *.
      destruct (validate_afs feature r dd) as [[d2 ok2] e2] eqn:R. injection H' as <- <- <-.
      destruct (IH _ _ _ _ N' R) as [I1 [I2 [I3 [I4 I5]]]].
      assert (OT : forall k, k <> af -> dget k dd = dget k d) by (intros; apply dget_dset_other; auto).
      assert (RT : forall k, In k r -> dget k dd = dget k d) by (intros k K; apply OT; intros ->; contradiction).
      split; [|split; [|split; [|split]]].
      * rewrite I1. split.
        -- intros Q k x [<-|K] X; [rewrite G in X; injection X as <-; rewrite EL; discriminate|]. apply (Q k); [auto|rewrite RT; auto].
        -- intros Q k x K X. apply (Q k); [right; auto|rewrite <- RT; auto].
      * intros O k [<-|K].
        -- rewrite G. rewrite I3; [apply dget_dset_same|auto].
        -- specialize (I2 O k K). rewrite (RT k K) in I2. exact I2.
      * intros k K. rewrite I3; [apply OT; intros ->; apply K; left; auto|intros J; apply K; right; auto].
      * intros O. specialize (I4 O). split.
        -- intros E k x z K X Z. apply app_eq_nil in E. destruct E as [E1 E2]. destruct K as [<-|K].
           ++ rewrite G in X. injection X as <-. apply (proj1 (session_errs_spec feature _) E1). auto.
           ++ apply (proj1 I4 E2 k x); auto. rewrite RT; auto.
        -- intros Q. assert (E1 : session_errs feature (elems v) = []) by (apply session_errs_spec; intros z Z; apply (Q af v); auto; left; auto).
           assert (E2 : e2 = []). { apply I4. intros k x z K X Z. apply (Q k x z); [right; auto|rewrite <- RT; auto|auto]. }
           rewrite E1, E2. auto.
      * intros x X. apply in_app_iff in X. destruct X as [X|X]; [|apply I5; auto].
        unfold session_errs in X. destruct (forallb _ _); [destruct X|destruct X as [<-|[]]; auto].
    + destruct (IH _ _ _ _ N' H) as [I1 [I2 [I3 [I4 I5]]]]. split; [|split; [|split; [|split; auto]]].
      * rewrite I1. split; intros Q k x K X; [destruct K as [<-|K]; [congruence|eapply Q; eauto]|apply (Q k x); [right|]; auto].
      * intros O k [<-|K]; [rewrite G, I3; auto|apply I2; auto].
      * intros k K. apply I3. intros J. apply K. right. auto.
      * intros O. rewrite (I4 O). split; intros Q k x z K X Z; [destruct K as [<-|K]; [congruence|apply (Q k x); auto]|apply (Q k x); auto; right; auto].
Qed.

Lemma dget_map_af : forall (l : list val) afs af, dget af (map (fun a => (a, VList l)) afs) = if in_dec string_dec af afs then Some (VList l) else None.
Proof.
  intros l. induction afs as [|a afs IH]; intros af; cbn [map dget]; [auto|]. destruct (String.eqb_spec af a) as [->|Q].
  - destruct (in_dec string_dec a (a :: afs)) as [_|N]; [auto|]. exfalso. apply N. left. auto.
  - rewrite IH. destruct (in_dec string_dec af afs), (in_dec string_dec af (a :: afs)) as [I|I]; auto.
    + exfalso. apply I. right. auto.
    + destruct I; [congruence|contradiction].
Qed.

Lemma AF_NoDup : NoDup ["ipv4"; "ipv6"].
Proof. repeat constructor; cbn; intuition discriminate. Qed.

(* the validated parameter *)
Lemma validate_spec : forall feature n v n' ok e, dget feature (mn_mpls n) = Some v -> validate_param feature n = (n', ok, e) ->
  (ok = true <-> usable v) /\
  (ok = true -> forall af, In af ["ipv4"; "ipv6"] ->
     dget af (sub_attrs feature n') = match af_values (mn_af n) v af with Some l => Some (VList l) | None => None end) /\
  (ok = true -> (e = [] <-> ~ bad_session (mn_af n) v)) /\
  mn_ngbs n' = mn_ngbs n /\ mn_intfs n' = mn_intfs n /\ mn_af n' = mn_af n /\ mn_bgp4 n' = mn_bgp4 n /\ mn_rr n' = mn_rr n /\
  mn_vrfs n' = mn_vrfs n /\ mn_ldp n' = mn_ldp n /\
  (forall k, k <> feature -> dget k (mn_mpls n') = dget k (mn_mpls n)) /\ dget feature (mn_mpls n') <> None /\
  (forall x, In x e -> x = ESession feature \/ x = EParam feature \/ exists af, x = EAfType feature af).
Proof.
  intros feature n v n' ok e G H. unfold validate_param in H. rewrite G in H.
  assert (NU : forall x, (forall l, x <> VList l) -> (forall d, x <> VDict d) -> ~ usable x).
  { intros x A B [[l [E _]]|[d [E _]]]; [eapply A; eauto|eapply B; eauto]. }
  destruct v as [|b|z|s|l|d];
    try (injection H as <- <- <-; (split; [split; [discriminate|intros U; exfalso; revert U; apply NU; intros; discriminate]|]);
         (split; [discriminate|]); (split; [discriminate|]); repeat split; auto; [congruence|intros x [<-|[]]; auto]).
  - destruct l as [|y l].
    + injection H as <- <- <-. split; [split; [discriminate|]|].
      * intros [[l [E N]]|[d [E _]]]; [injection E as <-; congruence|discriminate].
      * split; [discriminate|]. split; [discriminate|]. repeat split; auto; [congruence|intros x []].
    + injection H as <- <- <-. split; [split; [intros _; left; exists (y :: l); split; [auto|discriminate]|auto]|].
      split; [|split; [|repeat split; auto]].
      * intros _ af A. unfold sub_attrs. cbn [set_mpls mn_mpls]. rewrite dget_dset_same. rewrite dget_map_af. cbn [af_values].
        destruct (in_dec string_dec af (mn_af n)); auto.
      * intros _. rewrite session_errs_spec. split.
        -- intros Q [l' [x [X [X1 [X2 X3]]]]]. destruct X3 as [E|[af [d [_ [E _]]]]]; [|discriminate]. injection E as <-. destruct (Q x X); contradiction.
        -- intros Q x X. destruct (str_dec x "ibgp") as [E1|E1]; [auto|].
           destruct (str_dec x "ebgp") as [E2|E2]; [auto|].
           exfalso. apply Q. exists (y :: l), x. split; [auto|]. split; [exact E1|]. split; [exact E2|]. left. auto.
      * intros k K. cbn [set_mpls mn_mpls]. apply dget_dset_other. auto.
      * cbn [set_mpls mn_mpls]. rewrite dget_dset_same. discriminate.
      * intros x X. unfold session_errs in X. destruct (forallb _ _); [destruct X|destruct X as [<-|[]]; auto].
  - destruct (validate_afs feature AF_LIST d) as [[d' ok'] e'] eqn:V. injection H as <- <- <-.
    destruct (validate_afs_spec _ _ _ _ _ _ AF_NoDup V) as [S1 [S2 [S3 [S4 S5]]]].
    split; [|split; [|split; [|repeat split; auto]]].
    + rewrite S1. split.
      * intros Q. right. exists d. split; auto.
      * intros [[l [E _]]|[d0 [E Q]]]; [discriminate|]. injection E as <-. auto.
    + intros O af A. unfold sub_attrs. cbn [set_mpls mn_mpls]. rewrite dget_dset_same. specialize (S2 O af A). cbn [af_values].
      destruct (dget af d); auto.
    + intros O. rewrite (S4 O). split.
      * intros Q [l' [x [X [X1 [X2 X3]]]]]. destruct X3 as [E|[af [d0 [A [E [y [Y1 Y2]]]]]]]; [discriminate|]. injection E as <-. subst l'.
        destruct (Q af y x A Y1 X); contradiction.
      * intros Q af x y A X Y. destruct (str_dec y "ibgp") as [E1|E1]; [auto|].
        destruct (str_dec y "ebgp") as [E2|E2]; [auto|].
        exfalso. apply Q. exists (elems x), y. split; [auto|]. split; [exact E1|]. split; [exact E2|].
        right. exists af, d. split; [auto|]. split; [auto|]. exists x. auto.
    + intros k K. cbn [set_mpls mn_mpls]. apply dget_dset_other. auto.
    + cbn [set_mpls mn_mpls]. rewrite dget_dset_same. discriminate.
    + intros x X. destruct (S5 x X) as [->|[af ->]]; eauto.
Qed.

(* ---------- C127: labeled BGP sessions ---------- *)

(* session type [s] is set for [af] *)
Definition session_on (afs : list string) (v : val) (af s : string) : Prop :=
  exists l, af_values afs v af = Some l /\ In (VStr s) l.

Lemma Forall2_map_r : forall A B (R : A -> B -> Prop) f l, (forall x, R x (f x)) -> Forall2 R l (map f l).
Proof. intros A B R f l H. induction l; cbn; constructor; auto. Qed.

(* Labels are used exactly on the sessions of the requested types with an address of the requested family; a
   parameter that is empty, or empty for one address family, leaves all sessions without labels. *)
Theorem labels_exact : forall n v n' e, dget "bgp" (mn_mpls n) = Some v ->
  Forall (fun g => mg_label4 g = false /\ mg_label6 g = false) (mn_ngbs n) -> node_adjust_bgplu n = (n', e) ->
  (usable v -> Forall2 (fun g g' =>
     (mg_label4 g' = true <-> mg_v4 g <> None /\ session_on (mn_af n) v "ipv4" (mg_type g)) /\
     (mg_label6 g' = true <-> mg_v6 g <> None /\ session_on (mn_af n) v "ipv6" (mg_type g)) /\
     mg_name g' = mg_name g /\ mg_type g' = mg_type g /\ mg_v4 g' = mg_v4 g /\ mg_v6 g' = mg_v6 g /\
     mg_vpn4 g' = mg_vpn4 g /\ mg_vpn6 g' = mg_vpn6 g /\ mg_6pe g' = mg_6pe g) (mn_ngbs n) (mn_ngbs n') /\
     (e = [] <-> ~ bad_session (mn_af n) v)) /\
  (~ usable v -> mn_ngbs n' = mn_ngbs n).
Proof.
  intros n v n' e G F H. unfold node_adjust_bgplu in H. destruct (validate_param "bgp" n) as [[n1 ok] e1] eqn:V.
  destruct (validate_spec _ _ _ _ _ _ G V) as [S1 [S2 [S3 [S4 _]]]]. destruct ok.
  - injection H as <- <-. split; [|intros U; exfalso; apply U, S1; auto]. intros U. split; [|apply S3; auto].
    cbn [set_ngbs mn_ngbs]. rewrite S4. clear S4 V. induction F as [|g l [L4 L6] F IH]; cbn [map]; constructor; auto.
    assert (Q : forall af (addr : option val), In af ["ipv4"; "ipv6"] ->
      (isSome addr && match dget af (sub_attrs "bgp" n1) with Some x => in_val (mg_type g) x | None => false end = true <->
       addr <> None /\ session_on (mn_af n) v af (mg_type g))).
    { intros af addr A. rewrite (S2 eq_refl af A). unfold session_on. rewrite andb_true_iff.
      assert (SS : isSome addr = true <-> addr <> None) by (destruct addr; cbn; split; congruence).
      rewrite SS. destruct (af_values (mn_af n) v af) as [vs|].
      - rewrite in_val_spec. split; intros [X Y]; (split; [auto|]); [eauto|]. destruct Y as [l' [E I]]. injection E as <-. auto.
      - split; intros [X Y]; [discriminate|]. destruct Y as [l' [E I]]. discriminate. }
    unfold label_ngb. rewrite L4, L6. cbn [orb mg_label4 mg_label6 mg_name mg_type mg_v4 mg_v6 mg_vpn4 mg_vpn6 mg_6pe].
    split; [apply Q; cbn; auto|]. split; [apply Q; cbn; auto|]. repeat split; auto.
  - injection H as <- <-. split; [|intros _; auto]. intros U. apply S1 in U. discriminate.
Qed.

Definition ngb (nm t : string) (v4 v6 : option val) : mngb := mk_mg nm t v4 v6 false false None None false.
Definition bgp_node (m : dict val) (l : list mngb) : mnode := mk_mn ["ipv4"; "ipv6"] m true false [["ipv4"]] l [] false.

Example labels_example : exists n', node_adjust_bgplu (bgp_node [("bgp", VDict [("ipv4", strs ["ebgp"])])]
    [ngb "r2" "ebgp" (Some (VStr "10.0.0.2")) None; ngb "r3" "ibgp" (Some (VStr "10.0.0.3")) None]) = (n', []) /\
  map mg_label4 (mn_ngbs n') = [true; false].
Proof. eexists. split; reflexivity. Qed.

(* An empty list for IPv6 turns off the IPv4 labels, without an error. *)
Theorem labels_refuted :
  (exists n', node_adjust_bgplu (bgp_node [("bgp", VDict [("ipv4", strs ["ibgp"]); ("ipv6", VList [])])]
     [ngb "r2" "ibgp" (Some (VStr "10.0.0.2")) None]) = (n', []) /\ map mg_label4 (mn_ngbs n') = [false]).
Proof. eexists. split; reflexivity. Qed.

(* ---------- C128: MPLS/VPN ---------- *)

(* VPN address family [af] is used on the node *)
Definition vpn_on (n : mnode) (v : val) (af : string) : Prop :=
  exists l, af_values (mn_af n) v af = Some l /\
  (mn_rr n = true \/ (exists vrf, In vrf (mn_vrfs n) /\ In af vrf) \/ In (VStr "ebgp") l).

Lemma prune_get : forall vrfs af d k, dget k (prune_af vrfs af d) =
  if String.eqb k af then match dget af d with
                          | Some v => if negb (existsb (memS af) vrfs) && negb (in_val "ebgp" v) then None else Some v
                          | None => None
                          end
  else dget k d.
Proof.
  intros vrfs af d k. unfold prune_af. destruct (String.eqb_spec k af) as [->|Q].
  - destruct (dget af d) as [v|] eqn:E; [|auto]. destruct (negb _ && negb _); [apply dget_dpop_same|auto].
  - destruct (dget af d) as [v|]; [|auto]. destruct (negb _ && negb _); [apply dget_dpop_other; auto|auto].
Qed.

(* An IPv4 neighbor gets the VPN address families in use, whatever the type of the session is. *)
Theorem vpn_exact : forall n v n' e, dget "vpn" (mn_mpls n) = Some v ->
  Forall (fun g => mg_vpn4 g = None /\ mg_vpn6 g = None) (mn_ngbs n) -> node_adjust_mplsvpn n = (n', e) ->
  (usable v ->
     Forall2 (fun g g' =>
       (mg_vpn4 g' <> None <-> mg_v4 g <> None /\ vpn_on n v "ipv4") /\ (mg_vpn6 g' <> None <-> mg_v4 g <> None /\ vpn_on n v "ipv6") /\
       (forall a, mg_vpn4 g' = Some a -> mg_v4 g = Some a) /\ (forall a, mg_vpn6 g' = Some a -> mg_v4 g = Some a) /\
       mg_name g' = mg_name g /\ mg_type g' = mg_type g /\ mg_v4 g' = mg_v4 g /\ mg_v6 g' = mg_v6 g /\
       mg_label4 g' = mg_label4 g /\ mg_label6 g' = mg_label6 g /\ mg_6pe g' = mg_6pe g) (mn_ngbs n) (mn_ngbs n') /\
     (forall af, In af ["ipv4"; "ipv6"] -> (dget af (sub_attrs "vpn" n') <> None <-> vpn_on n v af)) /\
     (e = [] <-> ~ bad_session (mn_af n) v)) /\
  (~ usable v -> mn_ngbs n' = mn_ngbs n).
Proof.
  intros n v n' e G F H. unfold node_adjust_mplsvpn in H. destruct (validate_param "vpn" n) as [[n1 ok] e1] eqn:V.
  destruct (validate_spec _ _ _ _ _ _ G V) as [S1 [S2 [S3 [S4 [_ [_ [_ [S5 [S6 _]]]]]]]]]. destruct ok.
  2: { injection H as <- <-. split; [|intros _; auto]. intros U. apply S1 in U. discriminate. }
  injection H as <- <-. split; [|intros U; exfalso; apply U, S1; auto]. intros U.
  set (d' := if mn_rr n1 then _ else _) in *.
  assert (D : forall af, In af ["ipv4"; "ipv6"] -> (dget af d' <> None <-> vpn_on n v af)).
  { intros af A. specialize (S2 eq_refl af A). unfold vpn_on.
    assert (VX : existsb (memS af) (mn_vrfs n) = true <-> exists vrf, In vrf (mn_vrfs n) /\ In af vrf).
    { rewrite existsb_exists. split; intros [x [X1 X2]]; exists x; (split; [auto|]); apply memS_true; auto. }
    assert (PG : mn_rr n = false -> dget af d' = match dget af (sub_attrs "vpn" n1) with
                          | Some v => if negb (existsb (memS af) (mn_vrfs n)) && negb (in_val "ebgp" v) then None else Some v
                          | None => None
                          end).
    { intros RR. unfold d'. rewrite S5, S6, RR. rewrite !prune_get. destruct A as [<-|[<-|[]]]; cbn [String.eqb Ascii.eqb Bool.eqb]; reflexivity. }
    destruct (mn_rr n) eqn:RR.
    - unfold d'. rewrite S5, S2. destruct (af_values (mn_af n) v af) as [l|].
      + split; [intros _; exists l; auto|discriminate].
      + split; [congruence|intros [l [E _]]; discriminate].
    - rewrite (PG eq_refl), S2. destruct (af_values (mn_af n) v af) as [l|].
      + destruct (existsb (memS af) (mn_vrfs n)) eqn:X; cbn [negb andb].
        * split; [intros _; exists l; split; [auto|right; left; apply VX; auto]|discriminate].
        * destruct (in_val "ebgp" (VList l)) eqn:Y; cbn [negb].
          -- split; [intros _; exists l; split; [auto|right; right; apply in_val_spec; auto]|discriminate].
          -- split; [congruence|]. intros [l' [E [Q|[Q|Q]]]]; [discriminate|apply VX in Q; discriminate|].
             injection E as <-. apply in_val_spec in Q. congruence.
      + split; [congruence|intros [l [E _]]; discriminate]. }
  split; [|split; [|apply S3; auto]].
  - cbn [set_ngbs mn_ngbs set_mpls]. rewrite S4. clear S4 V. induction F as [|g l [L4 L6] F IH]; cbn [map]; constructor; auto.
    assert (DM : forall af, dmem af d' = true <-> dget af d' <> None) by (intros af; unfold dmem; destruct (dget af d'); split; congruence).
    assert (D4 := D "ipv4" (or_introl eq_refl)). assert (D6 := D "ipv6" (or_intror (or_introl eq_refl))).
    unfold vpn_ngb. destruct (mg_v4 g) as [a|] eqn:E4.
    + cbn [mg_label4 mg_label6 mg_name mg_type mg_v4 mg_v6 mg_vpn4 mg_vpn6 mg_6pe]. rewrite L4, L6.
      rewrite <- D4, <- D6, <- !DM.
      destruct (dmem "ipv4" d'), (dmem "ipv6" d'); repeat split; auto; try discriminate; try congruence;
        try (intros [_ Q]; discriminate Q).
    + rewrite L4, L6, E4. repeat split; auto; try discriminate; try congruence; try (intros [Q _]; congruence).
  - intros af A. rewrite <- D; [|auto]. unfold sub_attrs. cbn [set_ngbs set_mpls mn_mpls]. rewrite dget_dset_same. tauto.
Qed.

(* VPN routes are exchanged over EBGP sessions even when only IBGP sessions were requested *)
Theorem vpn_session_refuted : exists n',
  node_adjust_mplsvpn (bgp_node [("vpn", VDict [("ipv4", strs ["ibgp"])])] [ngb "r2" "ebgp" (Some (VStr "10.0.0.2")) None]) = (n', []) /\
  map mg_vpn4 (mn_ngbs n') = [Some (VStr "10.0.0.2")].
Proof. eexists. split; reflexivity. Qed.

Example vpn_example : exists n',
  node_adjust_mplsvpn (bgp_node [("vpn", strs ["ibgp"])] [ngb "r2" "ibgp" (Some (VStr "10.0.0.2")) None; ngb "r3" "ibgp" None (Some (VStr "::1"))]) = (n', []) /\
  map mg_vpn4 (mn_ngbs n') = [Some (VStr "10.0.0.2"); None] /\ map mg_vpn6 (mn_ngbs n') = [None; None].
Proof. eexists. repeat split; reflexivity. Qed.

(* ---------- C129: 6PE ---------- *)

Definition lists (v : val) (s : string) : Prop := exists l, v = VList l /\ In (VStr s) l.

Lemma in_val_lists : forall s v, in_val s v = true <-> lists v s.
Proof.
  intros s v. unfold lists. destruct v; try (cbn; split; [discriminate|intros [l' [E _]]; discriminate E]).
  rewrite in_val_spec. split; [eauto|]. intros [l' [E I]]. injection E as <-. auto.
Qed.

(* labeled unicast data the 6PE code accepts *)
Definition six_ready (n : mnode) : Prop :=
  match dget "bgp" (mn_mpls n) with
  | None => True
  | Some v => usable v /\ af_values (mn_af n) v "ipv6" = None
  end.

(* 6PE is enabled exactly on the IPv4 sessions of the requested types; the IPv6 session is removed exactly when
   the neighbor requested 6PE for that type of sessions. *)
Theorem sixpe_exact : forall peer n n' e v, dget "6pe" (mn_mpls n) = Some v ->
  Forall (fun g => mg_6pe g = false) (mn_ngbs n) -> node_adjust_6pe peer n = (n', e) ->
  (mn_bgp4 n = true /\ six_ready n ->
     Forall2 (fun g g' =>
       (mg_6pe g' = true <-> mg_v4 g <> None /\ lists v (mg_type g)) /\
       (mg_v6 g' = None <-> mg_v6 g = None \/ (mg_6pe g' = true /\ lists (peer (mg_name g)) (mg_type g))) /\
       (forall a, mg_v6 g' = Some a -> mg_v6 g = Some a) /\
       mg_name g' = mg_name g /\ mg_type g' = mg_type g /\ mg_v4 g' = mg_v4 g /\
       mg_label4 g' = mg_label4 g /\ mg_label6 g' = mg_label6 g /\ mg_vpn4 g' = mg_vpn4 g /\ mg_vpn6 g' = mg_vpn6 g)
       (mn_ngbs n) (mn_ngbs n')) /\
  (~ (mn_bgp4 n = true /\ six_ready n) -> mn_ngbs n' = mn_ngbs n) /\
  (In ESixNoIpv4 e -> mn_bgp4 n = false) /\
  (In ESixLabeled e -> mn_bgp4 n = true /\ ~ six_ready n).
Proof.
  intros peer n n' e v G F H. unfold node_adjust_6pe in H.
  destruct (validate_param "bgp" n) as [[n1 ok] e1] eqn:V.
  assert (K : mn_ngbs n1 = mn_ngbs n /\ mn_bgp4 n1 = mn_bgp4 n /\ dget "6pe" (mn_mpls n1) = Some v /\
    (forall x, In x e1 -> x = ESession "bgp" \/ x = EParam "bgp" \/ exists af, x = EAfType "bgp" af) /\
    (ok = true /\ dget "ipv6" (sub_attrs "bgp" n1) = None <-> six_ready n)).
  { destruct (dget "bgp" (mn_mpls n)) as [b|] eqn:B.
    - destruct (validate_spec _ _ _ _ _ _ B V) as [S1 [S2 [_ [S4 [_ [_ [S5 [_ [_ [_ [S6 [_ S7]]]]]]]]]]]].
      split; [auto|]. split; [auto|]. split; [rewrite S6; auto; discriminate|]. split; [auto|]. unfold six_ready. rewrite B. split.
      + intros [O D]. split; [apply S1; auto|]. rewrite (S2 O "ipv6") in D; [|cbn; auto]. destruct (af_values _ _ _); [discriminate|auto].
      + intros [U D]. apply S1 in U. split; [auto|]. rewrite (S2 U "ipv6"); [|cbn; auto]. rewrite D. auto.
    - unfold validate_param in V. rewrite B in V. injection V as <- <- <-. split; [auto|]. split; [auto|]. split.
      + cbn [set_mpls mn_mpls]. rewrite dget_dset_other; [auto|discriminate].
      + split; [intros x []|]. unfold six_ready. rewrite B. split; [auto|]. intros _. split; [auto|]. unfold sub_attrs. cbn [set_mpls mn_mpls].
        rewrite dget_dset_same. auto. }
  destruct K as [K1 [K2 [K3 [K4 K5]]]].
  assert (NE : forall x, x = ESixNoIpv4 \/ x = ESixLabeled -> ~ In x e1).
  { intros x X I. destruct (K4 x I) as [->|[->|[af ->]]]; destruct X; discriminate. }
  assert (NE1 := NE ESixNoIpv4 (or_introl eq_refl)). assert (NE2 := NE ESixLabeled (or_intror eq_refl)).
  destruct ok.
  2: { injection H as <- <-. split; [intros [_ R]; apply K5 in R; destruct R; discriminate|]. split; [auto|].
       split; intros I; exfalso; contradiction. }
  rewrite K2 in H. destruct (mn_bgp4 n) eqn:B4; cbn [negb] in H.
  2: { injection H as <- <-. split; [intros [Q _]; discriminate|]. split; [auto|]. split; [auto|].
       intros I. exfalso. apply in_app_iff in I. destruct I as [I|[I|[]]]; [contradiction|discriminate]. }
  assert (DM : dmem "ipv6" (sub_attrs "bgp" n1) = false <-> six_ready n).
  { rewrite <- K5. unfold dmem. destruct (dget "ipv6" (sub_attrs "bgp" n1)); split; [discriminate|intros [_ Q]; discriminate|auto|auto]. }
  destruct (dmem "ipv6" (sub_attrs "bgp" n1)).
  { injection H as <- <-. assert (NR : ~ six_ready n) by (intros R; apply DM in R; discriminate).
    split; [intros [_ Q]; contradiction|]. split; [auto|]. split; [|auto].
    intros I. exfalso. apply in_app_iff in I. destruct I as [I|[I|[]]]; [contradiction|discriminate]. }
  assert (RD : six_ready n) by (apply DM; auto). injection H as <- <-. rewrite K3.
  split; [|split; [intros Q; exfalso; apply Q; auto|split; intros I; exfalso; contradiction]]. intros _.
  cbn [set_ngbs mn_ngbs]. rewrite K1. clear K1. induction F as [|g l L F IH]; cbn [map]; constructor; auto.
  unfold six_ngb. assert (SS : isSome (mg_v4 g) = true <-> mg_v4 g <> None) by (destruct (mg_v4 g); cbn; split; congruence).
  destruct (isSome (mg_v4 g) && in_val (mg_type g) v) eqn:C.
  - apply andb_true_iff in C. destruct C as [C1 C2]. apply SS in C1. apply in_val_lists in C2.
    cbn [mg_label4 mg_label6 mg_name mg_type mg_v4 mg_v6 mg_vpn4 mg_vpn6 mg_6pe].
    split; [tauto|]. destruct (in_val (mg_type g) (peer (mg_name g))) eqn:P.
    + apply in_val_lists in P. repeat split; auto; discriminate.
    + split; [|repeat split; auto]. split; [auto|]. intros [Q|[_ Q]]; [auto|]. apply in_val_lists in Q. congruence.
  - rewrite L. split.
    + split; [discriminate|]. intros [Q1 Q2]. apply SS in Q1. apply in_val_lists in Q2. rewrite Q1, Q2 in C. discriminate.
    + split; [|repeat split; auto]. split; [auto|]. intros [Q|[Q _]]; [auto|discriminate].
Qed.

(* Both ends of a session agree: when both nodes are ready for 6PE, the IPv6 session between them is removed on
   one node exactly when it is removed on the other one. *)
Theorem sixpe_symmetric : forall na nb a b a' b' ea eb va vb peer i j ga gb ga' gb',
  na <> nb -> mg_name ga = nb -> mg_name gb = na -> mg_type ga = mg_type gb ->
  dget "6pe" (mn_mpls a) = Some va -> dget "6pe" (mn_mpls b) = Some vb -> peer na = va -> peer nb = vb ->
  Forall (fun g => mg_6pe g = false) (mn_ngbs a) -> Forall (fun g => mg_6pe g = false) (mn_ngbs b) ->
  mn_bgp4 a = true -> mn_bgp4 b = true -> six_ready a -> six_ready b ->
  node_adjust_6pe peer a = (a', ea) -> node_adjust_6pe peer b = (b', eb) ->
  nth_error (mn_ngbs a) i = Some ga -> nth_error (mn_ngbs a') i = Some ga' ->
  nth_error (mn_ngbs b) j = Some gb -> nth_error (mn_ngbs b') j = Some gb' ->
  mg_v4 ga <> None -> mg_v4 gb <> None -> mg_v6 ga <> None -> mg_v6 gb <> None ->
  (mg_v6 ga' = None <-> mg_v6 gb' = None).
Proof.
  intros na nb a b a' b' ea eb va vb peer i j ga gb ga' gb' NE NA NB T GA GB PA PB FA FB BA BB RA RB HA HB IA IA' IB IB' V4A V4B V6A V6B.
  destruct (sixpe_exact _ _ _ _ _ GA FA HA) as [SA _]. destruct (sixpe_exact _ _ _ _ _ GB FB HB) as [SB _].
  specialize (SA (conj BA RA)). specialize (SB (conj BB RB)).
  assert (N2 : forall (R : mngb -> mngb -> Prop) l l' k x y, Forall2 R l l' -> nth_error l k = Some x -> nth_error l' k = Some y -> R x y).
  { intros R l l' k x y F. revert k. induction F as [|u w l l' U F IH]; intros [|k] X Y; cbn in X, Y; try discriminate.
    - injection X as <-. injection Y as <-. auto.
    - eapply IH; eauto. }
  destruct (N2 _ _ _ _ _ _ SA IA IA') as [A1 [A2 _]]. destruct (N2 _ _ _ _ _ _ SB IB IB') as [B1 [B2 _]].
  rewrite A2, B2, A1, B1, NA, NB, PA, PB, T. tauto.
Qed.

Definition six_node (m : dict val) (nm : string) : mnode :=
  bgp_node m [ngb nm "ibgp" (Some (VStr "10.0.0.1")) (Some (VStr "2001:db8::1"))].

Example sixpe_example :
  let peer := fun _ => strs ["ibgp"] in
  exists a' b', node_adjust_6pe peer (six_node [("6pe", strs ["ibgp"])] "b") = (a', []) /\
    node_adjust_6pe peer (six_node [("6pe", strs ["ibgp"]); ("bgp", VDict [("ipv4", strs ["ebgp"])])] "a") = (b', []) /\
    map mg_v6 (mn_ngbs a') = [None] /\ map mg_v6 (mn_ngbs b') = [None] /\ map mg_6pe (mn_ngbs a') = [true].
Proof. eexists. eexists. repeat split; reflexivity. Qed.

(* One end fails without an error: a node with an empty labeled unicast parameter keeps the IPv6 session its
   neighbor has removed; and the 6PE session types are not checked. *)
Theorem sixpe_refuted :
  (let peer := fun _ => strs ["ibgp"] in
   exists a' b', node_adjust_6pe peer (six_node [("6pe", strs ["ibgp"])] "b") = (a', []) /\
    node_adjust_6pe peer (six_node [("6pe", strs ["ibgp"]); ("bgp", VDict [("ipv4", VList [])])] "a") = (b', []) /\
    map mg_v6 (mn_ngbs a') = [None] /\ map mg_v6 (mn_ngbs b') = [Some (VStr "2001:db8::1")]) /\
  (exists n', node_adjust_6pe (fun _ => VList []) (six_node [("6pe", strs ["foo"])] "b") = (n', [])).
Proof. split; [eexists; eexists; repeat split; reflexivity|eexists; reflexivity]. Qed.

(* ---------- C130: device features ---------- *)

Definition feature_names : list string := ["ldp"; "bgp"; "vpn"; "6pe"].

(* The errors are exactly the configured features, or address families of the features, the device does not support. *)
Theorem features_exact : forall fs m x, In x (check_node_features fs m) <->
  exists fn v, In fn feature_names /\ dget fn m = Some v /\
    ((fs fn = FOff /\ x = EFeature fn) \/
     (exists v4 v6 d, fs fn = FAf v4 v6 /\ v = VDict d /\
        ((dget "ipv4" d <> None /\ v4 = false /\ x = EFeatureAf fn "ipv4") \/
         (dget "ipv6" d <> None /\ v6 = false /\ x = EFeatureAf fn "ipv6")))).
Proof.
  intros fs m x. unfold check_node_features. rewrite in_flat_map. unfold FEATURES, feature_names.
  assert (DM : forall k (d : dict val), dmem k d = true <-> dget k d <> None) by (intros k d; unfold dmem; destruct (dget k d); split; congruence).
  split.
  - intros [fn [I C]]. unfold check_feature in C. destruct (dget fn m) as [v|] eqn:G; [|destruct C]. exists fn, v. split; [auto|]. split; [auto|].
    destruct (fs fn) as [| |v4 v6] eqn:FS.
    + left. destruct C as [<-|[]]. auto.
    + destruct C.
    + right. destruct v; try contradiction. exists v4, v6, d. split; [auto|]. split; [auto|].
      apply in_app_iff in C. destruct C as [C|C].
      * left. destruct (dmem "ipv4" d && negb v4) eqn:E; [|destruct C]. apply andb_true_iff in E. destruct E as [E1 E2]. destruct C as [<-|[]].
        split; [apply DM; auto|split; [destruct v4; auto; discriminate|auto]].
      * right. destruct (dmem "ipv6" d && negb v6) eqn:E; [|destruct C]. apply andb_true_iff in E. destruct E as [E1 E2]. destruct C as [<-|[]].
        split; [apply DM; auto|split; [destruct v6; auto; discriminate|auto]].
  - intros [fn [v [I [G Q]]]]. exists fn. split; [auto|]. unfold check_feature. rewrite G. destruct Q as [[FS ->]|[v4 [v6 [d [FS [-> Q]]]]]].
    + rewrite FS. left. auto.
    + rewrite FS. apply in_or_app. destruct Q as [[D [-> ->]]|[D [-> ->]]]; apply DM in D; rewrite D; cbn; auto.
Qed.

Lemma bgplu_keeps : forall n n' e, node_adjust_bgplu n = (n', e) -> forall k, k <> "bgp" -> dget k (mn_mpls n') = dget k (mn_mpls n).
Proof.
  intros n n' e H k K. unfold node_adjust_bgplu in H. destruct (validate_param "bgp" n) as [[n1 ok] e1] eqn:V.
  assert (Q : dget k (mn_mpls n1) = dget k (mn_mpls n)).
  { destruct (dget "bgp" (mn_mpls n)) as [v|] eqn:G; [apply (validate_spec _ _ _ _ _ _ G V); auto|].
    unfold validate_param in V. rewrite G in V. injection V as <- <- <-. cbn [set_mpls mn_mpls]. apply dget_dset_other. auto. }
  destruct ok; injection H as <- <-; exact Q.
Qed.

Lemma vpn_keeps : forall n n' e, node_adjust_mplsvpn n = (n', e) -> forall k, k <> "vpn" -> dget k (mn_mpls n') = dget k (mn_mpls n).
Proof.
  intros n n' e H k K. unfold node_adjust_mplsvpn in H. destruct (validate_param "vpn" n) as [[n1 ok] e1] eqn:V.
  assert (Q : dget k (mn_mpls n1) = dget k (mn_mpls n)).
  { destruct (dget "vpn" (mn_mpls n)) as [v|] eqn:G; [apply (validate_spec _ _ _ _ _ _ G V); auto|].
    unfold validate_param in V. rewrite G in V. injection V as <- <- <-. cbn [set_mpls mn_mpls]. apply dget_dset_other. auto. }
  destruct ok; injection H as <- <-; [|exact Q]. cbn [set_ngbs set_mpls mn_mpls]. rewrite dget_dset_other; auto.
Qed.

Lemma sixpe_keeps : forall peer n n' e, node_adjust_6pe peer n = (n', e) -> forall k, k <> "bgp" -> dget k (mn_mpls n') = dget k (mn_mpls n).
Proof.
  intros peer n n' e H k K. unfold node_adjust_6pe in H. destruct (validate_param "bgp" n) as [[n1 ok] e1] eqn:V.
  assert (Q : dget k (mn_mpls n1) = dget k (mn_mpls n)).
  { destruct (dget "bgp" (mn_mpls n)) as [v|] eqn:G; [apply (validate_spec _ _ _ _ _ _ G V); auto|].
    unfold validate_param in V. rewrite G in V. injection V as <- <- <-. cbn [set_mpls mn_mpls]. apply dget_dset_other. auto. }
  destruct ok; [|injection H as <- <-; exact Q].
  destruct (negb (mn_bgp4 n1)); [injection H as <- <-; exact Q|].
  destruct (dmem "ipv6" (sub_attrs "bgp" n1)); injection H as <- <-; exact Q.
Qed.

(* the errors of the adjustments are not feature errors *)
Lemma validate_errs : forall f n n' ok e x, validate_param f n = (n', ok, e) -> In x e -> x = ESession f \/ x = EParam f \/ exists af, x = EAfType f af.
Proof.
  intros f n n' ok e x V I. destruct (dget f (mn_mpls n)) as [v|] eqn:G; [eapply validate_spec; eauto|].
  unfold validate_param in V. rewrite G in V. injection V as <- <- <-. destruct I.
Qed.

(* LDP support of the device is never checked on a node with IPv4: the mpls.ldp data is removed before the check. *)
Theorem ldp_support_unchecked : forall fs csc running peer n n' e, In "ipv4" (mn_af n) ->
  node_post_transform fs csc running peer n = (Some n', e) -> ~ In (EFeature "ldp") e.
Proof.
  intros fs csc running peer n n' e A H. unfold node_post_transform in H. destruct (mn_mpls n) as [|kv m] eqn:M; [injection H as <- <-; intros []|].
  rewrite <- M in H. clear M kv m.
  destruct (if dmem "ldp" (mn_mpls n) then node_adjust_ldp csc running n else (Some n, [])) as [[n1|] e1] eqn:E1; [|discriminate].
  assert (P1 : dget "ldp" (mn_mpls n1) = None /\ ~ In (EFeature "ldp") e1).
  { destruct (dmem "ldp" (mn_mpls n)) eqn:D.
    - unfold node_adjust_ldp in E1. apply memS_true in A. rewrite A in E1. cbn [negb] in E1.
      destruct (ldp_intfs csc running (mn_intfs n)) as [[l|] e0] eqn:L; [|discriminate]. injection E1 as <- <-. split.
      + cbn [set_mpls mn_mpls]. apply dget_dpop_same.
      + clear - L. revert l e0 L. induction (mn_intfs n) as [|i r IH]; intros l e0 L; cbn [ldp_intfs] in L; [injection L as <- <-; intros []|].
        destruct (ldp_intf csc running i) as [[i'|] a] eqn:LI; [|discriminate].
        destruct (ldp_intfs csc running r) as [[r'|] b] eqn:LR; [|discriminate]. injection L as <- <-. intros I. apply in_app_iff in I.
        destruct I as [I|I]; [|eapply IH; eauto]. unfold ldp_intf in LI.
        destruct (negb (mi_v4 i)); [injection LI as <- <-; destruct I|].
        destruct (mi_vrf i && _); [injection LI as <- <-; destruct I|].
        destruct (mi_vrf i && _); [injection LI as <- <-; destruct I as [I|[]]; discriminate I|].
        destruct (mi_flag i) as [[|]|]; destruct (String.eqb (mi_role i) "external"); try discriminate LI; injection LI as <- <-; destruct I.
    - injection E1 as <- <-. split; [|intros []]. unfold dmem in D. destruct (dget "ldp" (mn_mpls n)); [discriminate|auto]. }
  destruct P1 as [P1 Q1].
  destruct (if dmem "bgp" (mn_mpls n1) then node_adjust_bgplu n1 else (n1, [])) as [n2 e2] eqn:E2.
  destruct (if dmem "vpn" (mn_mpls n2) then node_adjust_mplsvpn n2 else (n2, [])) as [n3 e3] eqn:E3.
  destruct (if dmem "6pe" (mn_mpls n3) then node_adjust_6pe peer n3 else (n3, [])) as [n4 e4] eqn:E4.
  injection H as <- <-.
  assert (P2 : dget "ldp" (mn_mpls n2) = None /\ ~ In (EFeature "ldp") e2).
  { destruct (dmem "bgp" (mn_mpls n1)); [|injection E2 as <- <-; auto]. split; [rewrite (bgplu_keeps _ _ _ E2); [auto|discriminate]|].
    unfold node_adjust_bgplu in E2. destruct (validate_param "bgp" n1) as [[a ok] b] eqn:V. intros I.
    assert (J : In (EFeature "ldp") b) by (destruct ok; injection E2 as <- <-; auto).
    destruct (validate_errs _ _ _ _ _ _ V J) as [X|[X|[af X]]]; discriminate X. }
  destruct P2 as [P2 Q2].
  assert (P3 : dget "ldp" (mn_mpls n3) = None /\ ~ In (EFeature "ldp") e3).
  { destruct (dmem "vpn" (mn_mpls n2)); [|injection E3 as <- <-; auto]. split; [rewrite (vpn_keeps _ _ _ E3); [auto|discriminate]|].
    unfold node_adjust_mplsvpn in E3. destruct (validate_param "vpn" n2) as [[a ok] b] eqn:V. intros I.
    assert (J : In (EFeature "ldp") b) by (destruct ok; injection E3 as <- <-; auto).
    destruct (validate_errs _ _ _ _ _ _ V J) as [X|[X|[af X]]]; discriminate X. }
  destruct P3 as [P3 Q3].
  assert (P4 : dget "ldp" (mn_mpls n4) = None /\ ~ In (EFeature "ldp") e4).
  { destruct (dmem "6pe" (mn_mpls n3)); [|injection E4 as <- <-; auto]. split; [rewrite (sixpe_keeps _ _ _ _ E4); [auto|discriminate]|].
    unfold node_adjust_6pe in E4. destruct (validate_param "bgp" n3) as [[a ok] b] eqn:V. intros I.
    assert (J : In (EFeature "ldp") b).
    { destruct ok; [|injection E4 as <- <-; auto]. destruct (negb (mn_bgp4 a)).
      - injection E4 as <- <-. apply in_app_iff in I. destruct I as [I|[I|[]]]; [auto|discriminate].
      - destruct (dmem "ipv6" (sub_attrs "bgp" a)); injection E4 as <- <-; [|auto].
        apply in_app_iff in I. destruct I as [I|[I|[]]]; [auto|discriminate]. }
    destruct (validate_errs _ _ _ _ _ _ V J) as [X|[X|[af X]]]; discriminate X. }
  destruct P4 as [P4 Q4].
  rewrite !in_app_iff. intros [I|[I|[I|[I|I]]]]; try contradiction.
  apply features_exact in I. destruct I as [fn [v [_ [G [[_ X]|[v4 [v6 [d [_ [_ [[_ [_ X]]|[_ [_ X]]]]]]]]]]]]]; try discriminate X.
  injection X as <-. congruence.
Qed.

(* 6PE on a device that supports 6PE and no labeled unicast is an error, although labeled unicast is not used *)
Theorem sixpe_feature_refuted : forall fs csc running peer afs rr vrfs gs is v n' e, fs "bgp" = FOff -> 
  node_post_transform fs csc running peer (mk_mn afs [("6pe", v)] true rr vrfs gs is false) = (Some n', e) ->
  In (EFeature "bgp") e.
Proof.
  intros fs csc running peer afs rr vrfs gs is v n' e F H.
  unfold node_post_transform in H. cbn [mn_mpls] in H.
  assert (X1 : dmem "ldp" [("6pe", v)] = false) by reflexivity. assert (X2 : dmem "bgp" [("6pe", v)] = false) by reflexivity.
  assert (X3 : dmem "vpn" [("6pe", v)] = false) by reflexivity. assert (X4 : dmem "6pe" [("6pe", v)] = true) by reflexivity.
  rewrite X1 in H. cbv beta iota in H. cbn [mn_mpls] in H. rewrite X2 in H. cbv beta iota in H. cbn [mn_mpls] in H. rewrite X3 in H.
  cbv beta iota in H. cbn [mn_mpls] in H. rewrite X4 in H. cbv beta iota in H.
  assert (S : exists gs' e4, node_adjust_6pe peer (mk_mn afs [("6pe", v)] true rr vrfs gs is false) =
    (mk_mn afs [("6pe", v); ("bgp", VDict [])] true rr vrfs gs' is false, e4)).
  { eexists. eexists. unfold node_adjust_6pe, validate_param. reflexivity. }
  destruct S as [gs' [e4 S]]. rewrite S in H. injection H as <- <-. cbn [mn_mpls app]. apply in_or_app. right.
  apply features_exact. exists "bgp", (VDict []). split; [cbn; auto|]. split; [reflexivity|]. left. auto.
Qed.

Example features_example : exists n',
  node_post_transform (fun f => if String.eqb f "bgp" then FAf true false else FOff) false (fun _ => false) (fun _ => VList [])
    (bgp_node [("bgp", strs ["ibgp"])] [ngb "r2" "ibgp" (Some (VStr "10.0.0.2")) None]) = (Some n', [EFeatureAf "bgp" "ipv6"]).
Proof. eexists. reflexivity. Qed.

Print Assumptions labels_exact.
Print Assumptions labels_refuted.
Print Assumptions vpn_exact.
Print Assumptions vpn_session_refuted.
Print Assumptions sixpe_exact.
Print Assumptions sixpe_symmetric.
Print Assumptions sixpe_refuted.
Print Assumptions features_exact.
Print Assumptions ldp_support_unchecked.
Print Assumptions sixpe_feature_refuted.
