(* Router ids: C43, C70. *)
From Coq Require Import String Ascii ZArith Lia Bool List.
From Verif Require Import Base Text_Model Text_Props Types_Model Types_Props Pool_Model Pool_Props Rid_Model.
Import ListNotations.
Open Scope Z_scope.
Local Open Scope string_scope.
Local Open Scope list_scope.

Lemma get_address_eq : forall s a, get_address s = Some a <-> a = s /\ exists n, parse_ipv4 s = Some n.
Proof.
  intros s a. unfold get_address. destruct (parse_ipv4 s) as [n|] eqn:P.
  - apply parse_ipv4_iff in P as Q. destruct Q as [-> R]. split.
    + intros H. injection H as <-. split; eauto.
    + intros [-> _]. auto.
  - split; [discriminate|]. intros [_ [n H]]. discriminate.
Qed.

Lemma get_intf_address_eq : forall s a, get_intf_address s = Some a ->
  (exists n, parse_ipv4 a = Some n) /\ (s = a \/ exists l n, s = (a ++ String "/" l)%string /\ parse_plen l = Some n).
Proof.
  intros s a H. unfold get_intf_address in H. destruct (split_inv "/"%char s) as [h [t [S1 [S2 [S3 S4]]]]].
  rewrite S1 in H. destruct t as [|l [|x y]]; [| |discriminate].
  - apply get_address_eq in H. destruct H as [-> H]. split; [auto|]. left. auto.
  - destruct (parse_plen l) as [n|] eqn:E; [|discriminate]. apply get_address_eq in H. destruct H as [-> H].
    split; [auto|]. right. destruct S4 as [r [S4 S5]]. exists l, n. split; auto. subst s.
    destruct (split_inv "/"%char r) as [h' [t' [R1 [R2 [R3 R4]]]]]. rewrite R1 in S5. injection S5 as -> ->.
    rewrite (R3 eq_refl). auto.
Qed.

(* The router id of a protocol: the configured one, or the one of the node, or the address of the loopback
   interface, or an address from the pool. *)
Theorem router_id_choice : forall proto n p n' p', router_id proto n p = (n', p', []) ->
  (forall s, dget proto (rn_proto n) = Some s -> dget proto (rn_proto n') = Some s /\ p' = p /\ rn_rid n' = rn_rid n)
  /\ (dget proto (rn_proto n) = None -> forall s, rn_rid n = Some s ->
        dget proto (rn_proto n') = Some s /\ p' = p /\ rn_rid n' = Some s)
  /\ (dget proto (rn_proto n) = None -> rn_rid n = None -> forall s, rn_lb n = Some s ->
        exists a, dget proto (rn_proto n') = Some a /\ p' = p /\ rn_rid n' = None
          /\ (s = a \/ exists l, s = (a ++ String "/" l)%string))
  /\ (dget proto (rn_proto n) = None -> rn_rid n = None -> rn_lb n = None ->
        exists q q' x, p = Some q /\ p' = Some q' /\ get_pool_prefix 32 (PNth (rn_id n)) q = (Some x, q')
          /\ dget proto (rn_proto n') = Some (ipv4_str (net_addr x)) /\ rn_rid n' = Some (ipv4_str (net_addr x)))
  /\ (exists a, dget proto (rn_proto n') = Some a)
  /\ (forall proto', proto' <> proto -> dget proto' (rn_proto n') = dget proto' (rn_proto n))
  /\ rn_id n' = rn_id n /\ rn_lb n' = rn_lb n.
Proof.
  intros proto n p n' p' H. unfold router_id in H. destruct (dget proto (rn_proto n)) as [s|] eqn:P.
  { destruct (get_address s) as [a|] eqn:A; [|discriminate]. apply get_address_eq in A. destruct A as [-> _].
    injection H as <- <-. unfold set_proto. cbn [rn_proto rn_id rn_lb rn_rid]. split; [|split; [|split; [|split; [|split; [|split; [|split]]]]]]; auto; try discriminate.
    - intros s' E. injection E as <-. rewrite dget_dset_same. auto.
    - exists s. apply dget_dset_same.
    - intros q N. apply dget_dset_other. auto. }
  destruct (rn_rid n) as [s|] eqn:R.
  { destruct (get_address s) as [a|] eqn:A; [|discriminate]. apply get_address_eq in A. destruct A as [-> _].
    injection H as <- <-. cbn [rn_proto rn_id rn_lb rn_rid]. split; [|split; [|split; [|split; [|split; [|split; [|split]]]]]]; auto; try discriminate.
    - intros _ s' E. injection E as <-. rewrite dget_dset_same. auto.
    - exists s. apply dget_dset_same.
    - intros q N. apply dget_dset_other. auto. }
  destruct (rn_lb n) as [s|] eqn:L.
  { destruct (get_intf_address s) as [a|] eqn:A; [|discriminate]. apply get_intf_address_eq in A. destruct A as [_ A].
    injection H as <- <-. unfold set_proto. cbn [rn_proto rn_id rn_lb rn_rid]. split; [|split; [|split; [|split; [|split; [|split; [|split]]]]]]; auto; try discriminate.
    - intros _ _ s' E. injection E as <-. exists a. rewrite dget_dset_same. repeat (split; auto).
      destruct A as [A|[l [x [A _]]]]; eauto.
    - exists a. apply dget_dset_same.
    - intros q N. apply dget_dset_other. auto. }
  unfold get_router_id_prefix in H. destruct p as [q|]; [|discriminate].
  destruct (get_pool_prefix 32 (PNth (rn_id n)) q) as [[x|] q'] eqn:G; [|discriminate].
  injection H as <- <-. cbn [rn_proto rn_id rn_lb rn_rid]. split; [|split; [|split; [|split; [|split; [|split; [|split]]]]]]; auto; try discriminate.
  - intros _ _ _. exists q, q', x. rewrite dget_dset_same. auto.
  - exists (ipv4_str (net_addr x)). apply dget_dset_same.
  - intros r N. apply dget_dset_other. auto.
Qed.

(* an invalid address is reported *)
Theorem router_id_invalid : forall proto n p s,
  dget proto (rn_proto n) = Some s \/ (dget proto (rn_proto n) = None /\ rn_rid n = Some s) ->
  (snd (router_id proto n p) = [] <-> exists a, parse_ipv4 s = Some a).
Proof.
  intros proto n p s H. unfold router_id.
  assert (E : forall (A : Type) (f : string -> A) (g : A),
     match get_address s with Some a => f a | None => g end = match parse_ipv4 s with Some _ => f s | None => g end).
  { intros A f g. destruct (get_address s) as [a|] eqn:A1.
    - apply get_address_eq in A1. destruct A1 as [-> [m ->]]. auto.
    - unfold get_address in A1. destruct (parse_ipv4 s); [discriminate|auto]. }
  destruct H as [H|[H1 H2]].
  - rewrite H, E. destruct (parse_ipv4 s); cbn [snd]; split; eauto; try discriminate. intros [a C]. discriminate.
  - rewrite H1, H2, E. destruct (parse_ipv4 s); cbn [snd]; split; eauto; try discriminate. intros [a C]. discriminate.
Qed.

(* ---- all calls ---- *)

Definition pool_log := list (pool_op * option network).

(* where the router id of a protocol comes from *)
Definition rid_of (xs : pool_log) (n : rnode) (proto s : string) : Prop :=
  dget proto (rn_proto n) = Some s
  \/ (dget proto (rn_proto n) = None /\
      (rn_rid n = Some s
       \/ (rn_rid n = None /\
           ((exists l, rn_lb n = Some l /\ (l = s \/ exists q, l = (s ++ String "/" q)%string))
            \/ (rn_lb n = None /\ exists x, In (PNth (rn_id n), Some x) xs /\ s = ipv4_str (net_addr x)))))).

Definition rid_rel (xs : pool_log) (n n' : rnode) : Prop :=
  rn_id n' = rn_id n /\ rn_lb n' = rn_lb n
  /\ (forall proto s, dget proto (rn_proto n') = Some s -> rid_of xs n proto s)
  /\ (rn_rid n' = rn_rid n \/
      (rn_rid n = None /\ rn_lb n = None /\ exists x, In (PNth (rn_id n), Some x) xs /\ rn_rid n' = Some (ipv4_str (net_addr x))))
  /\ (forall proto s, dget proto (rn_proto n) = Some s -> dget proto (rn_proto n') = Some s).

Lemma rid_rel_refl : forall n, rid_rel [] n n.
Proof. intros n. repeat (split; auto). intros proto s H. left. auto. Qed.

Lemma rid_rel_trans : forall xs ys n1 n2 n3, rid_rel xs n1 n2 -> rid_rel ys n2 n3 -> rid_rel (xs ++ ys) n1 n3.
Proof.
  intros xs ys n1 n2 n3 [A1 [A2 [A3 [A4 A5]]]] [B1 [B2 [B3 [B4 B5]]]].
  assert (Up : forall proto s, rid_of xs n1 proto s -> rid_of (xs ++ ys) n1 proto s).
  { intros proto s [H|[H [H'|[H' [H2|[H2 [x [H3 H4]]]]]]]].
    - left. auto.
    - right. auto.
    - right. auto 10.
    - right. split; auto. right. split; auto. right. split; auto. exists x. split; auto. apply in_or_app. auto. }
  split; [congruence|]. split; [congruence|]. split; [|split; [|auto]].
  - intros proto s H. apply B3 in H. destruct H as [H|[H H']]; [apply Up; auto|].
    assert (N : dget proto (rn_proto n1) = None).
    { destruct (dget proto (rn_proto n1)) as [q|] eqn:E; auto. apply A5 in E. congruence. }
    right. split; [auto|]. destruct A4 as [A4|[R [L [x [X1 X2]]]]].
    + destruct H' as [H'|[H' H2]]; [left; congruence|]. right. split; [congruence|].
      destruct H2 as [[l [H2 H3]]|[H2 [x [H3 H4]]]]; [left; exists l; split; [congruence|auto]|].
      right. split; [congruence|]. exists x. split; [|auto]. apply in_or_app. right. congruence.
    + destruct H' as [H'|[H' H2]]; [|congruence]. right. split; auto. right. split; auto. exists x.
      split; [apply in_or_app; auto|congruence].
  - destruct A4 as [A4|[R [L [x [X1 X2]]]]].
    + destruct B4 as [B4|[R [L [x [X1 X2]]]]]; [left; congruence|]. right. split; [congruence|]. split; [congruence|].
      exists x. split; [apply in_or_app; right; congruence|auto].
    + right. split; auto. split; auto. exists x. split; [apply in_or_app; auto|].
      destruct B4 as [B4|[R' _]]; congruence.
Qed.

Lemma rid_rel_more : forall xs ys n n', rid_rel xs n n' -> rid_rel (ys ++ xs) n n'.
Proof.
  intros xs ys n n' H. apply (rid_rel_trans ys xs n n n'); auto.
  split; [auto|]. split; [auto|]. split; [intros; left; auto|]. auto.
Qed.

Lemma router_id_rel : forall proto n q n' p' e, router_id proto n (Some q) = (n', p', e) -> (0 < rn_id n)%nat ->
  exists h xs q', nth_only h /\ pool_run 32 h q = (xs, q') /\ p' = Some q' /\ rid_rel xs n n'
    /\ (e = [] -> dget proto (rn_proto n') <> None).
Proof.
  intros proto n q n' p' e H Pos.
  destruct e as [|e0 e].
  - destruct (router_id_choice _ _ _ _ _ H) as [C1 [C2 [C3 [C4 [C5 [C6 [C7 C8]]]]]]].
    assert (Ex : dget proto (rn_proto n') <> None) by (destruct C5 as [a C5]; congruence).
    destruct (dget proto (rn_proto n)) as [s|] eqn:P.
    { destruct (C1 s eq_refl) as [D1 [-> D3]]. exists [], [], q. split; [constructor|]. split; [auto|]. split; [auto|]. split; [|auto].
      split; [auto|]. split; [auto|]. split; [|split; auto].
      - intros pr s' D. left. destruct (String.eqb_spec pr proto) as [->|N]; [congruence|]. rewrite <- C6; auto.
      - intros pr s' D. destruct (String.eqb_spec pr proto) as [->|N]; [congruence|]. rewrite C6; auto. }
    destruct (rn_rid n) as [s|] eqn:R.
    { destruct (C2 eq_refl s eq_refl) as [D1 [-> D3]]. exists [], [], q. split; [constructor|]. split; [auto|]. split; [auto|]. split; [|auto].
      split; [auto|]. split; [auto|]. split; [|split].
      - intros pr s' D. destruct (String.eqb_spec pr proto) as [->|N].
        + right. split; auto. left. congruence.
        + left. rewrite <- C6; auto.
      - left. congruence.
      - intros pr s' D. destruct (String.eqb_spec pr proto) as [->|N]; [congruence|]. rewrite C6; auto. }
    destruct (rn_lb n) as [s|] eqn:L.
    { destruct (C3 eq_refl eq_refl s eq_refl) as [a [D1 [-> [D3 D4]]]]. exists [], [], q. split; [constructor|]. split; [auto|]. split; [auto|]. split; [|auto].
      split; [auto|]. split; [congruence|]. split; [|split].
      - intros pr s' D. destruct (String.eqb_spec pr proto) as [->|N].
        + right. split; auto. right. split; auto. left. exists s. split; auto. assert (s' = a) by congruence. subst s'. auto.
        + left. rewrite <- C6; auto.
      - left. congruence.
      - intros pr s' D. destruct (String.eqb_spec pr proto) as [->|N]; [congruence|]. rewrite C6; auto. }
    destruct (C4 eq_refl eq_refl eq_refl) as [q0 [q' [x [D1 [-> [D3 [D4 D5]]]]]]]. injection D1 as <-.
    exists [PNth (rn_id n)], [(PNth (rn_id n), Some x)], q'. split.
    { repeat constructor. destruct (rn_id n) as [|m]; [lia|eauto]. }
    split; [cbn [pool_run]; rewrite D3; auto|]. split; [auto|]. split; [|auto].
    split; [auto|]. split; [congruence|]. split; [|split].
    + intros pr s' D. destruct (String.eqb_spec pr proto) as [->|N].
      * right. split; auto. right. split; auto. right. split; auto. exists x. split; [left; auto|congruence].
      * left. rewrite <- C6; auto.
    + right. split; auto. split; auto. exists x. split; [left; auto|auto].
    + intros pr s' D. destruct (String.eqb_spec pr proto) as [->|N]; [congruence|]. rewrite C6; auto.
  - unfold router_id in H. destruct (dget proto (rn_proto n)) as [s|] eqn:P.
    { destruct (get_address s); [discriminate|]. injection H as <- <- <- <-. exists [], [], q.
      split; [constructor|]. split; [auto|]. split; [auto|]. split; [apply rid_rel_refl|discriminate]. }
    destruct (rn_rid n) as [s|] eqn:R.
    { destruct (get_address s); [discriminate|]. injection H as <- <- <- <-. exists [], [], q.
      split; [constructor|]. split; [auto|]. split; [auto|]. split; [apply rid_rel_refl|discriminate]. }
    destruct (rn_lb n) as [s|] eqn:L.
    { destruct (get_intf_address s); [discriminate|]. injection H as <- <- <- <-. exists [], [], q.
      split; [constructor|]. split; [auto|]. split; [auto|]. split; [apply rid_rel_refl|discriminate]. }
    unfold get_router_id_prefix in H. destruct (get_pool_prefix 32 (PNth (rn_id n)) q) as [[x|] q'] eqn:G; [discriminate|].
    injection H as <- <- <- <-. exists [PNth (rn_id n)], [(PNth (rn_id n), None)], q'. split.
    { repeat constructor. destruct (rn_id n) as [|m]; [lia|eauto]. }
    split; [cbn [pool_run]; rewrite G; auto|]. split; [auto|]. split; [|discriminate].
    apply (rid_rel_more [] [_] n n). apply rid_rel_refl.
Qed.

Lemma pool_run_app : forall h1 h2 q xs q1 ys q2, pool_run 32 h1 q = (xs, q1) -> pool_run 32 h2 q1 = (ys, q2) ->
  pool_run 32 (h1 ++ h2) q = (xs ++ ys, q2).
Proof.
  induction h1 as [|o h1 IH]; intros h2 q xs q1 ys q2 H1 H2; cbn [pool_run app] in *.
  - injection H1 as <- <-. auto.
  - destruct (get_pool_prefix 32 o q) as [x q0]. destruct (pool_run 32 h1 q0) as [zs q0'] eqn:E. injection H1 as <- <-.
    rewrite (IH h2 q0 zs q0' ys q2 E H2). auto.
Qed.

Lemma router_ids_rel : forall calls nodes q nodes' p' e, router_ids calls nodes (Some q) = (nodes', p', e) ->
  (forall k n, dget k nodes = Some n -> (0 < rn_id n)%nat) ->
  exists h xs q', nth_only h /\ pool_run 32 h q = (xs, q') /\ p' = Some q'
    /\ (forall k n, dget k nodes = Some n -> exists n', dget k nodes' = Some n' /\ rid_rel xs n n'
          /\ (e = [] -> forall proto, In (k, proto) calls -> dget proto (rn_proto n') <> None)).
Proof.
  induction calls as [|[k0 proto] calls IH]; intros nodes q nodes' p' e H Pos; cbn [router_ids] in H.
  - injection H as <- <- <-. exists [], [], q. split; [constructor|]. split; [auto|]. split; [auto|].
    intros k n D. exists n. split; auto. split; [apply rid_rel_refl|]. intros _ pr [].
  - destruct (dget k0 nodes) as [n0|] eqn:D0.
    + destruct (router_id proto n0 (Some q)) as [[n1 p1] e1] eqn:R.
      destruct (router_ids calls (dset k0 n1 nodes) p1) as [[ns p2] e2] eqn:R2. injection H as <- <- <-.
      destruct (router_id_rel _ _ _ _ _ _ R (Pos _ _ D0)) as [h1 [xs1 [q1 [H1 [H2 [-> [H4 H5]]]]]]].
      destruct (IH _ _ _ _ _ R2) as [h2 [xs2 [q2 [I1 [I2 [-> I4]]]]]].
      { intros k n D. destruct (String.eqb_spec k k0) as [->|N].
        - rewrite dget_dset_same in D. injection D as <-. destruct H4 as [-> _]. eauto.
        - rewrite dget_dset_other in D; eauto. }
      exists (h1 ++ h2), (xs1 ++ xs2), q2. split; [apply Forall_app; auto|]. split; [eapply pool_run_app; eauto|]. split; [auto|].
      intros k n D. destruct (String.eqb_spec k k0) as [->|N].
      * assert (n = n0) by congruence. subst n. destruct (I4 k0 n1) as [n' [J1 [J2 J3]]]; [apply dget_dset_same|].
        exists n'. split; auto. split; [eapply rid_rel_trans; eauto|].
        intros E pr Hin. apply app_eq_nil in E. destruct E as [-> ->].
        destruct Hin as [C|Hin]; [|auto]. injection C as ->. specialize (H5 eq_refl).
        destruct (dget pr (rn_proto n1)) as [s|] eqn:S1; [|congruence].
        destruct J2 as [_ [_ [_ [_ J2]]]]. rewrite (J2 _ _ S1). discriminate.
      * destruct (I4 k n) as [n' [J1 [J2 J3]]]; [rewrite dget_dset_other; auto|].
        exists n'. split; auto. split; [apply rid_rel_more; auto|].
        intros E pr Hin. apply app_eq_nil in E. destruct E as [-> ->]. destruct Hin as [C|Hin]; [congruence|auto].
    + destruct (IH _ _ _ _ _ H Pos) as [h [xs [q' [I1 [I2 [I3 I4]]]]]]. exists h, xs, q'. split; [auto|]. split; [auto|]. split; [auto|].
      intros k n D. destruct (I4 k n D) as [n' [J1 [J2 J3]]]. exists n'. split; auto. split; auto.
      intros E pr [C|Hin]; [congruence|auto].
Qed.

(* The router id pool of a lab *)
Definition rid_pool (net : network) (newp : Z) (lb : bool) (q : pool) : Prop :=
  create_pool 32 net newp lb = Some q /\ 0 <= net_plen net /\ 0 <= net_addr net /\ net_addr net + 2 ^ (32 - net_plen net) <= 2 ^ 32.

(* All router ids computed without errors: configured values are kept, and nodes without a configured
   router id and without IPv4 loopback get an address given by the node id. *)
Theorem router_ids_spec : forall net newp lb q calls nodes nodes' p', rid_pool net newp lb q ->
  router_ids calls nodes (Some q) = (nodes', p', []) ->
  (forall k n, dget k nodes = Some n -> (0 < rn_id n)%nat) ->
  exists skip, is_skip 32 newp lb skip /\
  forall k n proto, dget k nodes = Some n -> In (k, proto) calls ->
  exists n' s, dget k nodes' = Some n' /\ dget proto (rn_proto n') = Some s /\
    match dget proto (rn_proto n) with
    | Some c => s = c
    | None => match rn_rid n with
              | Some c => s = c
              | None => match rn_lb n with
                        | Some l => l = s \/ exists r, l = (s ++ String "/" r)%string
                        | None => exists x, s = ipv4_str x /\ x = net_addr net + (skip + Z.of_nat (rn_id n) - 1) * 2 ^ (32 - newp)
                                            /\ 0 <= x < 2 ^ 32
                        end
              end
    end.
Proof.
  intros net newp lb q calls nodes nodes' p' [Cp [P0 [P1 P2]]] H Pos.
  destruct (router_ids_rel _ _ _ _ _ _ H Pos) as [h [xs [q' [N [R [_ All]]]]]].
  destruct (nth_prefix_function_of_n 32 net newp lb q h xs q' P0 Cp N R) as [skip [Sk F]].
  exists skip. split; auto. intros k n proto D Hin. destruct (All k n D) as [n' [D' [[_ [_ [Rel _]]] Ex]]].
  destruct (dget proto (rn_proto n')) as [s|] eqn:S1; [|exfalso; exact (Ex eq_refl proto Hin S1)].
  exists n', s. split; auto. split; auto. apply Rel in S1.
  destruct S1 as [S1|[-> [->|[-> [[l [-> S1]]|[-> [x [X1 X2]]]]]]]]; auto.
  - rewrite S1. auto.
  - specialize (Pos _ _ D). destruct (rn_id n) as [|m] eqn:Id; [lia|].
    apply F in X1. destruct (skip + Z.of_nat m <? 2 ^ (newp - net_plen net))%Z eqn:L; [|discriminate].
    apply Z.ltb_lt in L. injection X1 as ->. cbn [net_addr] in X2. exists (net_addr net + (skip + Z.of_nat m) * 2 ^ (32 - newp)).
    split; [auto|]. split; [replace (skip + Z.of_nat (S m) - 1) with (skip + Z.of_nat m) by lia; auto|].
    destruct (create_pool_at _ _ _ _ _ Cp) as [_ [_ [_ [_ Hp]]]].
    assert (E : 2 ^ (32 - net_plen net) = 2 ^ (newp - net_plen net) * 2 ^ (32 - newp)).
    { rewrite <- Z.pow_add_r; try lia. f_equal; lia. }
    assert (0 < 2 ^ (32 - newp)) by (apply Z.pow_pos_nonneg; lia).
    assert (0 <= skip) by (destruct Sk as [[_ ->]|[_ ->]]; lia). nia.
Qed.

Lemma ipv4_str_inj : forall a b, 0 <= a < 2 ^ 32 -> 0 <= b < 2 ^ 32 -> ipv4_str a = ipv4_str b -> a = b.
Proof.
  intros a b Ha Hb E. assert (A : parse_ipv4 (ipv4_str a) = Some a) by (apply parse_ipv4_iff; auto).
  assert (B : parse_ipv4 (ipv4_str b) = Some b) by (apply parse_ipv4_iff; auto). congruence.
Qed.

(* Pool-derived router ids of different nodes differ, and a node uses one for all its protocols. *)
Theorem pool_router_ids_unique : forall net newp lb q calls nodes nodes' p' a b na nb pa pb, rid_pool net newp lb q ->
  router_ids calls nodes (Some q) = (nodes', p', []) ->
  (forall k n, dget k nodes = Some n -> (0 < rn_id n)%nat) ->
  dget a nodes = Some na -> dget b nodes = Some nb -> In (a, pa) calls -> In (b, pb) calls ->
  dget pa (rn_proto na) = None -> rn_rid na = None -> rn_lb na = None ->
  dget pb (rn_proto nb) = None -> rn_rid nb = None -> rn_lb nb = None ->
  exists na' nb' sa sb, dget a nodes' = Some na' /\ dget b nodes' = Some nb'
    /\ dget pa (rn_proto na') = Some sa /\ dget pb (rn_proto nb') = Some sb
    /\ (sa = sb <-> rn_id na = rn_id nb).
Proof.
  intros net newp lb q calls nodes nodes' p' a b na nb pa pb Hp H Pos Da Db Ia Ib A1 A2 A3 B1 B2 B3.
  destruct (router_ids_spec _ _ _ _ _ _ _ _ Hp H Pos) as [skip [_ S]].
  destruct (S a na pa Da Ia) as [na' [sa [D1 [D2 D3]]]]. destruct (S b nb pb Db Ib) as [nb' [sb [E1 [E2 E3]]]].
  rewrite A1, A2, A3 in D3. rewrite B1, B2, B3 in E3. destruct D3 as [x [X1 [X2 X3]]]. destruct E3 as [y [Y1 [Y2 Y3]]].
  exists na', nb', sa, sb. split; [auto|]. split; [auto|]. split; [auto|]. split; [auto|]. split.
  - intros E. assert (x = y) by (apply ipv4_str_inj; congruence).
    assert (0 < 2 ^ (32 - newp)). { destruct Hp as [Cp _]. destruct (create_pool_at _ _ _ _ _ Cp) as [_ [_ [_ [_ Q]]]]. apply Z.pow_pos_nonneg; lia. }
    assert ((skip + Z.of_nat (rn_id na) - 1) * 2 ^ (32 - newp) = (skip + Z.of_nat (rn_id nb) - 1) * 2 ^ (32 - newp)) by lia.
    apply Z.mul_reg_r in H2; lia.
  - intros E. rewrite E in X2. congruence.
Qed.

Definition rid_lab : dict rnode :=
  [("h1", mk_rnode 1 None None []); ("r2", mk_rnode 2 None (Some "10.0.0.2/32") []);
   ("r3", mk_rnode 3 (Some "10.9.9.9") None [("ospf", "10.9.9.8")]); ("h4", mk_rnode 4 None None [])].

Example rid_case : exists q, rid_pool (mk_net 167772160 24) 32 false q /\
  router_ids [("h1", "bgp"); ("h4", "bgp"); ("r2", "ospf"); ("r3", "bgp"); ("r3", "ospf"); ("h1", "ospf")] rid_lab (Some q)
  = ([("h1", mk_rnode 1 (Some "10.0.0.1") None [("bgp", "10.0.0.1"); ("ospf", "10.0.0.1")]);
      ("r2", mk_rnode 2 None (Some "10.0.0.2/32") [("ospf", "10.0.0.2")]);
      ("r3", mk_rnode 3 (Some "10.9.9.9") None [("ospf", "10.9.9.8"); ("bgp", "10.9.9.9")]);
      ("h4", mk_rnode 4 (Some "10.0.0.4") None [("bgp", "10.0.0.4")])],
     Some (mk_pool (mk_gen (mk_net 167772160 24) 32 5) (map (fun k => mk_net (167772160 + k) 32) [1; 2; 3; 4])), []).
Proof. eexists. split; [repeat split; vm_compute; congruence|]. vm_compute. reflexivity. Qed.

(* Router ids are not unique in a lab: the pool address of one node can be the loopback address of another one. *)
Theorem router_ids_unique_refuted : exists q nodes nodes' p', rid_pool (mk_net 167772160 24) 32 false q
  /\ router_ids [("a", "ospf"); ("b", "ospf")] nodes (Some q) = (nodes', p', [])
  /\ NoDup (map (fun kn => rn_id (snd kn)) nodes)
  /\ exists na nb s, dget "a" nodes' = Some na /\ dget "b" nodes' = Some nb /\ dget "ospf" (rn_proto na) = Some s /\ dget "ospf" (rn_proto nb) = Some s.
Proof.
  eexists _, [("a", mk_rnode 1 None None []); ("b", mk_rnode 2 None (Some "10.0.0.1/32") [])], _, _.
  split; [repeat split; vm_compute; congruence|]. split; [vm_compute; reflexivity|].
  split; [vm_compute; repeat constructor; cbn; lia|].
  eexists _, _, _. split; [vm_compute; reflexivity|]. split; [vm_compute; reflexivity|]. split; vm_compute; reflexivity.
Qed.

(* ------------------------------------------------------------------ *)
(* C70: unique router ids of VRF instances                              *)

Lemma opt_s_eqb_eq : forall a b, opt_s_eqb a b = true <-> a = b.
Proof.
  intros [a|] [b|]; cbn [opt_s_eqb]; split; try discriminate; auto.
  - intros H. apply String.eqb_eq in H. congruence.
  - intros H. injection H as ->. apply String.eqb_refl.
Qed.

Lemma mem_os_In : forall x l, mem_os x l = true <-> In x l.
Proof.
  intros x l. unfold mem_os. rewrite existsb_exists. split.
  - intros [y [H E]]. apply opt_s_eqb_eq in E. subst y. auto.
  - intros H. exists x. split; auto. apply opt_s_eqb_eq. auto.
Qed.

Lemma some_list_In : forall s l, In s (some_list l) <-> In (Some s) l.
Proof.
  intros s l. unfold some_list. rewrite in_flat_map. split.
  - intros [[x|] [H1 H2]]; [|destruct H2]. destruct H2 as [->|[]]. auto.
  - intros H. exists (Some s). split; auto. left. auto.
Qed.

Definition rid_addr (net : network) (newp k : Z) : string := ipv4_str (net_addr net + k * 2 ^ (32 - newp)).

(* the state of the pool: the number of the next prefix *)
Definition pool_pos (net : network) (newp : Z) (p : option pool) (pos : Z) : Prop :=
  exists q, p = Some q /\ p_gen q = mk_gen net newp pos /\ 0 <= pos.

Lemma next_step : forall net newp p pos, pool_pos net newp p pos ->
  exists p', (pos < cnt net newp /\ get_router_id_prefix false 0 p = (Some (elem 32 net newp pos), p') /\ pool_pos net newp p' (pos + 1))
          \/ (cnt net newp <= pos /\ get_router_id_prefix false 0 p = (None, p') /\ pool_pos net newp p' pos).
Proof.
  intros net newp p pos [q [-> [G P]]]. unfold get_router_id_prefix, get_pool_prefix. rewrite G, gen_next_at.
  destruct (pos <? cnt net newp)%Z eqn:L.
  - apply Z.ltb_lt in L. eexists. left. split; [auto|]. split; [reflexivity|]. eexists. split; [reflexivity|]. split; [reflexivity|lia].
  - apply Z.ltb_ge in L. eexists. right. split; [auto|]. split; [reflexivity|]. exists q. auto.
Qed.

Lemma next_rid_spec : forall net newp fuel black p pos r p', pool_pos net newp p pos ->
  next_rid fuel black p = Some (r, p') ->
  exists pos', pool_pos net newp p' pos' /\ pos <= pos' /\
    match r with
    | Some a => exists k, pos <= k < pos' /\ k < cnt net newp /\ a = rid_addr net newp k /\ ~ In a black
    | None => cnt net newp <= pos' /\ forall k, pos <= k < cnt net newp -> In (rid_addr net newp k) black
    end.
Proof.
  intros net newp. induction fuel as [|f IH]; intros black p pos r p' At H; [discriminate|]. cbn [next_rid] in H.
  destruct (next_step net newp p pos At) as [p1 [[L [E At1]]|[L [E At1]]]]; rewrite E in H.
  - change (ipv4_str (net_addr (elem 32 net newp pos))) with (rid_addr net newp pos) in H.
    destruct (memS (rid_addr net newp pos) black) eqn:M.
    + apply memS_true in M. destruct (IH black p1 (pos + 1) r p' At1 H) as [pos' [A1 [A2 A3]]]. exists pos'. split; auto. split; [lia|].
      destruct r as [a|].
      * destruct A3 as [k [K1 K2]]. exists k. split; [lia|auto].
      * destruct A3 as [A3 A4]. split; auto. intros k K. destruct (Z.eq_dec k pos) as [->|N]; auto. apply A4. lia.
    + apply memS_false in M. injection H as <- <-. exists (pos + 1). split; auto. split; [lia|]. exists pos. split; [lia|auto].
  - injection H as <- <-. exists pos. split; auto. split; [lia|]. split; [auto|]. intros k K. lia.
Qed.

Lemma next_rid_total : forall net newp fuel black p pos, pool_pos net newp p pos ->
  (Z.to_nat (cnt net newp - pos) < fuel)%nat -> next_rid fuel black p <> None.
Proof.
  intros net newp. induction fuel as [|f IH]; intros black p pos At L; [lia|]. cbn [next_rid].
  destruct (next_step net newp p pos At) as [p1 [[L1 [E At1]]|[L1 [E At1]]]]; rewrite E; [|discriminate].
  destruct (memS (ipv4_str (net_addr (elem 32 net newp pos))) black); [|discriminate]. apply (IH black p1 (pos + 1)); auto. lia.
Qed.

Lemma rid_fuel_enough : forall black p, (exists net newp pos, pool_pos net newp p pos) \/ p = None ->
  next_rid (rid_fuel p) black p <> None.
Proof.
  intros black p [[net [newp [pos At]]]| -> ]; [|discriminate]. destruct At as [q [-> [G P]]].
  apply (next_rid_total net newp _ black _ pos); [exists q; auto|]. unfold rid_fuel. rewrite G. unfold gen_count. cbn [g_pos g_new g_net]. unfold cnt. lia.
Qed.

Lemma cur_rids_app : forall a b, cur_rids (a ++ b) = cur_rids a ++ cur_rids b.
Proof. intros. apply flat_map_app. Qed.

(* the loop always ends *)
Lemma unique_rids_total : forall net newp todo others done rids black p pos, pool_pos net newp p pos ->
  unique_rids others done todo rids black p <> None.
Proof.
  intros net newp. induction todo as [|[v [rid|]] todo IH]; intros others done rids black p pos At; cbn [unique_rids]; [discriminate| |eauto].
  destruct (negb (mem_os rid rids)); [eauto|].
  match goal with |- context [next_rid (rid_fuel p) ?b p] => set (bl := b) end.
  destruct (next_rid (rid_fuel p) bl p) as [[[a|] p1]|] eqn:N.
  - destruct (next_rid_spec _ _ _ _ _ _ _ _ At N) as [pos1 [A1 _]].
    pose proof (IH others (done ++ [(v, Some (Some a))]) rids bl p1 pos1 A1) as C.
    destruct (unique_rids others (done ++ [(v, Some (Some a))]) todo rids bl p1) as [[[x y] z]|]; congruence.
  - destruct (next_rid_spec _ _ _ _ _ _ _ _ At N) as [pos1 [A1 _]].
    pose proof (IH others (done ++ [(v, Some rid)]) rids bl p1 pos1 A1) as C.
    destruct (unique_rids others (done ++ [(v, Some rid)]) todo rids bl p1) as [[[x y] z]|]; congruence.
  - exfalso. revert N. apply rid_fuel_enough. left. eauto.
Qed.

Section Unique.
Variables (net : network) (newp : Z).
Hypothesis range : forall k, 0 <= k < cnt net newp -> 0 <= net_addr net + k * 2 ^ (32 - newp) < 2 ^ 32.
Hypothesis step_pos : 0 < 2 ^ (32 - newp).

Lemma rid_addr_inj : forall i j, 0 <= i < cnt net newp -> 0 <= j < cnt net newp -> rid_addr net newp i = rid_addr net newp j -> i = j.
Proof. intros i j Hi Hj E. apply ipv4_str_inj in E; auto. nia. Qed.

Lemma unique_rids_inv : forall todo others done rids black news p pos own vs' p' w,
  pool_pos net newp p pos ->
  unique_rids others done todo rids black p = Some (vs', p', w) ->
  (forall v, ~ In (RidNotChanged v) w) ->
  NoDup (own ++ cur_rids done) -> incl rids (own ++ cur_rids done) -> incl own rids ->
  incl (some_list own) (some_list others) ->
  (forall x, In x (cur_rids done) -> In x rids \/ exists a, x = Some a /\ In a news) ->
  (forall a, In a news -> exists k, 0 <= k < pos /\ k < cnt net newp /\ a = rid_addr net newp k) ->
  (forall a, In a news -> In (Some a) (cur_rids todo) -> False) ->
  (forall r, In (Some r) (cur_rids todo) \/ In (Some r) rids \/ In (Some r) others -> In r black \/ black = []) ->
  (black = [] -> news = [] \/ forall r, ~ In (Some r) (cur_rids todo)) ->
  exists rest, vs' = done ++ rest /\ map fst rest = map fst todo /\ NoDup (own ++ cur_rids vs')
    /\ Forall2 (fun o v => snd v = snd o \/ exists a, snd v = Some (Some a) /\ snd o <> None
                 /\ ~ In (Some a) others /\ exists k, 0 <= k < cnt net newp /\ a = rid_addr net newp k)
               todo rest.
Proof.
  induction todo as [|[v [rid|]] todo IH]; intros others done rids black news p pos own vs' p' w At H W ND R1 R2 Ow C1 N1 N2 B1 B2; cbn [unique_rids] in H.
  - injection H as <- <- <-. exists []. rewrite app_nil_r. auto.
  - destruct (negb (mem_os rid rids)) eqn:M.
    + apply negb_true_iff in M.
      assert (NM : ~ In rid rids) by (intros C; apply mem_os_In in C; congruence). clear M.
      assert (Nd : ~ In rid (own ++ cur_rids done)).
      { intros C. apply in_app_or in C. destruct C as [C|C]; [apply NM; auto|]. apply C1 in C. destruct C as [C|[a [-> Ca]]]; [auto|].
        apply (N2 a Ca). left. auto. }
      assert (Ec : cur_rids (done ++ [(v, Some rid)]) = cur_rids done ++ [rid]) by apply cur_rids_app.
      apply (IH _ _ _ _ news _ pos own) in H; auto.
      * destruct H as [rest [E1 [E2 [E3 E4]]]]. exists ((v, Some rid) :: rest). rewrite E1, <- app_assoc. split; [auto|].
        split; [cbn [map fst]; congruence|]. rewrite <- app_assoc in E1. rewrite <- E1. split; [auto|]. constructor; [left; auto|].
        exact E4.
      * rewrite Ec, app_assoc. apply NoDup_app_intro; [auto|repeat constructor; intros []|]. intros x X1 [<-|[]]. auto.
      * rewrite Ec, app_assoc. apply incl_app; [apply incl_appl; auto|apply incl_appr, incl_refl].
      * apply incl_appl. auto.
      * rewrite Ec. intros x Hx. apply in_app_or in Hx. destruct Hx as [Hx|[<-|[]]].
        -- apply C1 in Hx. destruct Hx as [Hx|Hx]; [left; apply in_or_app; auto|auto].
        -- left. apply in_or_app. right. left. auto.
      * intros a Ha Hin. apply (N2 a Ha). right. auto.
      * intros r [Hr|[Hr|Hr]]; apply B1.
        -- left. right. auto.
        -- apply in_app_or in Hr. destruct Hr as [Hr|[->|[]]]; [auto|]. left. left. auto.
        -- auto.
      * intros E. destruct (B2 E) as [Q|Q]; auto. right. intros r Hr. apply (Q r). right. auto.
    + apply negb_false_iff in M. apply mem_os_In in M.
      match type of H with context [next_rid (rid_fuel p) ?b p] => set (bl := b) in * end.
      assert (Bl : forall r, In (Some r) (cur_rids ((v, Some rid) :: todo)) \/ In (Some r) rids \/ In (Some r) others -> In r bl).
      { intros r Hr. unfold bl. destruct black as [|b bs].
        - apply some_list_In. apply in_or_app. rewrite cur_rids_app. destruct Hr as [Hr|[Hr|Hr]]; auto.
          + right. apply in_or_app. auto.
          + apply R1 in Hr. apply in_app_or in Hr. destruct Hr as [Hr|Hr].
            * left. apply some_list_In. apply Ow. apply some_list_In. auto.
            * right. apply in_or_app. auto.
        - destruct (B1 r Hr) as [C|C]; [auto|discriminate]. }
      destruct (next_rid (rid_fuel p) bl p) as [[[a|] p1]|] eqn:N; [| |discriminate].
      * destruct (unique_rids others (done ++ [(v, Some (Some a))]) todo rids bl p1) as [[[vs p2] w2]|] eqn:U; [|discriminate].
        injection H as <- <- <-.
        destruct (next_rid_spec _ _ _ _ _ _ _ _ At N) as [pos1 [At1 [Le [k [K1 [K2 [K3 K4]]]]]]].
        assert (P0 : 0 <= pos) by (destruct At as [? [_ [_ P]]]; auto).
        assert (Na : ~ In a news).
        { intros C. apply N1 in C. destruct C as [j [J1 [J2 J3]]]. assert (k = j) by (apply rid_addr_inj; [lia|lia|congruence]). lia. }
        assert (Nd : ~ In (Some a) (own ++ cur_rids done)).
        { intros C. assert (In (Some a) rids \/ In a news) as [D|D]; [|apply K4; apply Bl; auto|auto].
          apply in_app_or in C. destruct C as [C|C]; [auto|]. apply C1 in C. destruct C as [C|[x [E Hx]]]; auto.
          injection E as <-. auto. }
        assert (Ec : cur_rids (done ++ [(v, Some (Some a))]) = cur_rids done ++ [Some a]) by apply cur_rids_app.
        apply (IH _ _ _ _ (a :: news) _ pos1 own) in U; auto.
        -- destruct U as [rest [E1 [E2 [E3 E4]]]]. exists ((v, Some (Some a)) :: rest). rewrite <- app_assoc in E1. split; [auto|].
           split; [cbn [map fst]; congruence|]. split; [auto|]. constructor; [|auto].
           right. exists a. split; [auto|]. split; [discriminate|]. split; [|exists k; split; [lia|auto]].
           intros C. apply K4. apply Bl. auto.
        -- intros q C. apply (W q). right. auto.
        -- rewrite Ec, app_assoc. apply NoDup_app_intro; [auto|repeat constructor; intros []|]. intros x X1 [<-|[]]. auto.
        -- rewrite Ec, app_assoc. apply incl_appl. auto.
        -- rewrite Ec. intros x Hx. apply in_app_or in Hx. destruct Hx as [Hx|[<-|[]]].
           ++ apply C1 in Hx. destruct Hx as [Hx|[y [E Hy]]]; [auto|]. right. exists y. split; [auto|right; auto].
           ++ right. exists a. split; [auto|left; auto].
        -- intros x [<-|Hx]; [exists k; split; [lia|auto]|]. destruct (N1 x Hx) as [j [J1 J2]]. exists j. split; [lia|auto].
        -- intros x [<-|Hx] C.
           ++ apply K4. apply Bl. left. right. auto.
           ++ apply (N2 x Hx). right. auto.
        -- intros r Hr. left. apply Bl. destruct Hr as [Hr|Hr]; auto. left. right. auto.
        -- intros E. right. intros r Hr. assert (In r bl) by (apply Bl; left; right; auto). rewrite E in H. destruct H.
      * exfalso. destruct (unique_rids others (done ++ [(v, Some rid)]) todo rids bl p1) as [[[vs p2] w2]|]; [|discriminate].
        injection H as <- <- <-. apply (W v). left. auto.
  - assert (Ec : cur_rids (done ++ [(v, None)]) = cur_rids done) by (rewrite cur_rids_app; apply app_nil_r).
    apply (IH _ _ _ _ news _ pos own) in H; auto; try (rewrite Ec; auto).
    destruct H as [rest [E1 [E2 [E3 E4]]]]. exists ((v, None) :: rest). rewrite <- app_assoc in E1. split; [auto|].
    split; [cbn [map fst]; congruence|]. split; [auto|]. constructor; [left; auto|auto].
Qed.
End Unique.

(* Without a failure the router ids of the protocol instances of a node (the global one and those in VRFs)
   are pairwise different; changed router ids come from the pool and are not used in the rest of the lab. *)
Theorem vrf_router_ids_unique : forall net newp lb q own others vs vs' p' w, rid_pool net newp lb q ->
  (forall h xs q', pool_run 32 h q = (xs, q') ->
   get_unique_router_ids own others vs (Some q') = Some (vs', p', w) ->
   (forall v, ~ In (RidNotChanged v) w) ->
   NoDup (match own with Some r => [r] | None => [] end ++ cur_rids vs') /\ map fst vs' = map fst vs
   /\ Forall2 (fun o v => snd v = snd o \/ exists a, snd v = Some (Some a) /\ snd o <> None /\ ~ In (Some a) others /\ own <> Some (Some a)
        /\ exists k, 0 <= k < 2 ^ (newp - net_plen net) /\ a = ipv4_str (net_addr net + k * 2 ^ (32 - newp))) vs vs').
Proof.
  intros net newp lb q own others vs vs' p' w [Cp [P0 [P1 P2]]] h xs q' R H W.
  destruct (create_pool_at _ _ _ _ _ Cp) as [skip [_ [Le [At Hp]]]].
  assert (V : valid_pool 32 net newp) by (unfold valid_pool; lia).
  assert (Q : exists pos, pool_pos net newp (Some q') pos).
  { clear H W Cp Le. revert skip xs q' At R. generalize (@nil Z) as cache. revert q. induction h as [|o h IH]; intros q cache skip xs q' At R; cbn [pool_run] in R.
    - injection R as <- <-. exists skip, q. destruct At as [A1 [_ [A2 _]]]. auto.
    - destruct (get_pool_prefix 32 o q) as [x q1] eqn:G. destruct (pool_run 32 h q1) as [ys q2] eqn:R1. injection R as <- <-.
      destruct (step_spec 32 net newp o q skip cache x q1 At G) as [pos1 [cache1 [At1 _]]]. eapply IH; eauto. }
  destruct Q as [pos Q].
  assert (S0 : 0 < 2 ^ (32 - newp)) by (apply Z.pow_pos_nonneg; lia).
  assert (Rg : forall k, 0 <= k < cnt net newp -> 0 <= net_addr net + k * 2 ^ (32 - newp) < 2 ^ 32).
  { intros k K. assert (E : 2 ^ (32 - net_plen net) = 2 ^ (newp - net_plen net) * 2 ^ (32 - newp)).
    { rewrite <- Z.pow_add_r; try lia. f_equal; lia. }
    unfold cnt in K. nia. }
  unfold get_unique_router_ids in H.
  destruct (unique_rids_inv net newp Rg S0 vs _ [] _ [] [] _ pos (match own with Some r => [r] | None => [] end) vs' p' w Q H W)
    as [rest [E1 [E2 [E3 E4]]]].
  - rewrite app_nil_r. destruct own; repeat constructor; intros [].
  - rewrite app_nil_r. apply incl_refl.
  - apply incl_refl.
  - intros s Hs. apply some_list_In. apply some_list_In in Hs. destruct own as [r|]; [|destruct Hs]. apply in_or_app. auto.
  - intros x [].
  - intros a [].
  - intros a [].
  - auto.
  - auto.
  - subst vs'. cbn [app]. split; [auto|]. split; [auto|].
    clear - E4. induction E4 as [|o v l l' F E4 IH]; constructor; auto. clear E4 IH. destruct F as [F|[a [F1 [F2 [F3 F4]]]]]; [auto|]. right. exists a.
    split; [auto|]. split; [auto|]. destruct own as [r|].
    + split; [intros C; apply F3; apply in_or_app; auto|]. split; [intros C; apply F3; apply in_or_app; right; left; congruence|]. auto.
    + split; [auto|]. split; [discriminate|auto].
Qed.

(* it always ends, and ids that already differ are left alone *)
Theorem vrf_router_ids_end : forall net newp p pos own others vs, pool_pos net newp p pos ->
  get_unique_router_ids own others vs p <> None.
Proof. intros. unfold get_unique_router_ids. eapply unique_rids_total; eauto. Qed.

Theorem vrf_router_ids_kept : forall own others vs p,
  NoDup (match own with Some r => [r] | None => [] end ++ cur_rids vs) ->
  get_unique_router_ids own others vs p = Some (vs, p, []).
Proof.
  intros own others vs p. unfold get_unique_router_ids. generalize (match own with Some r => others ++ [r] | None => others end).
  generalize (match own with Some r => [r] | None => [] end). clear own others.
  assert (G : forall todo done rids others, NoDup (rids ++ cur_rids todo) -> unique_rids others done todo rids [] p = Some (done ++ todo, p, [])).
  { induction todo as [|[v [rid|]] todo IH]; intros done rids others ND; cbn [unique_rids].
    - rewrite app_nil_r. auto.
    - assert (N : mem_os rid rids = false).
      { destruct (mem_os rid rids) eqn:M; auto. apply mem_os_In in M. exfalso.
        apply (NoDup_app_elim _ _ ND) with (x := rid); auto. left. auto. }
      rewrite N. cbn [negb]. rewrite IH; [rewrite <- app_assoc; auto|]. rewrite <- app_assoc. exact ND.
    - rewrite IH; [rewrite <- app_assoc; auto|exact ND]. }
  intros rids others ND. apply (G vs [] rids others ND).
Qed.

Example vrf_rid_case : exists q, rid_pool (mk_net 167772160 24) 32 false q /\
  exists q' p', pool_run 32 [PNth 2] q = ([(PNth 2, Some (mk_net 167772162 32))], q') /\
  get_unique_router_ids (Some (Some "10.0.0.2")) [Some "10.0.0.3"; None]
    [("red", Some (Some "10.0.0.2")); ("none", None); ("blue", Some (Some "10.0.0.2")); ("green", Some (Some "10.0.0.5"))] (Some q')
  = Some ([("red", Some (Some "10.0.0.4")); ("none", None); ("blue", Some (Some "10.0.0.6")); ("green", Some (Some "10.0.0.5"))], p',
          [RidChanged "red" (Some "10.0.0.2") "10.0.0.4"; RidChanged "blue" (Some "10.0.0.2") "10.0.0.6"]).
Proof.
  eexists. split; [repeat split; vm_compute; congruence|]. eexists _, _. split; [vm_compute; reflexivity|]. vm_compute. reflexivity.
Qed.

Print Assumptions router_id_choice.
Print Assumptions router_id_invalid.
Print Assumptions router_ids_spec.
Print Assumptions pool_router_ids_unique.
Print Assumptions router_ids_unique_refuted.
Print Assumptions vrf_router_ids_unique.
Print Assumptions vrf_router_ids_end.
Print Assumptions vrf_router_ids_kept.

