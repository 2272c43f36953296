(* Properties of management addresses and forwarded ports: C48. *)
From Coq Require Import String Ascii ZArith Lia Bool List.
From Verif Require Import Base Types_Model Types_Props Rid_Props Mgmt_Model.
Import ListNotations.
Open Scope Z_scope.

(* ------------------------------------------------------------------ *)
(* Addresses from the pool                                              *)

(* A network: first address and prefix length, inside an address space of [bits] bits *)
Definition net_ok (bits : Z) (net : Z * Z) : Prop :=
  0 <= snd net <= bits /\ 0 <= fst net /\ fst net + 2 ^ (bits - snd net) <= 2 ^ bits.

Lemma mgmt_af_spec : forall bits str pfx start id a e, mgmt_af bits str pfx start id = (a, e) -> 0 <= id + start ->
  match a with
  | Some s => e = [] /\ exists net, pfx = Some net /\ s = str (fst net + id + start) /\ id + start < 2 ^ (bits - snd net)
  | None => (pfx = None /\ e = []) \/ e <> []
  end.
Proof.
  intros bits str pfx start id a e H P. unfold mgmt_af, net_index in H. destruct pfx as [net|]; [|injection H as <- <-; auto].
  destruct (start =? 0); [injection H as <- <-; right; discriminate|].
  destruct (Z.ltb_spec (id + start) (2 ^ (bits - snd net))) as [L|L]; injection H as <- <-; [|right; discriminate].
  split; auto. exists net. split; auto. split; auto. f_equal. lia.
Qed.

(* A node without static management address gets the address at its node id plus the start offset in every
   prefix of the pool, or an error is reported. *)
Theorem mgmt_from_pool : forall str6 p id m' mac, augment_mgmt str6 (Some p) id (mk_mgmt None None mac) = (m', []) -> 0 < id -> 0 <= mp_start p ->
  (mg_v4 m' <> None \/ mg_v6 m' <> None)
  /\ match mp_v4 p with
     | Some net => mg_v4 m' = Some (ipv4_str (fst net + id + mp_start p)) /\ id + mp_start p < 2 ^ (32 - snd net)
     | None => mg_v4 m' = None
     end
  /\ match mp_v6 p with
     | Some net => mg_v6 m' = Some (str6 (fst net + id + mp_start p)) /\ id + mp_start p < 2 ^ (128 - snd net)
     | None => mg_v6 m' = None
     end.
Proof.
  intros str6 p id m' mac H Hid Hs. unfold augment_mgmt in H. cbn [mg_v4 mg_v6] in H.
  destruct (mgmt_af 32 ipv4_str (mp_v4 p) (mp_start p) id) as [v4 e4] eqn:E4.
  destruct (mgmt_af 128 str6 (mp_v6 p) (mp_start p) id) as [v6 e6] eqn:E6. injection H as <- H.
  apply app_eq_nil in H. destruct H as [-> H]. apply app_eq_nil in H. destruct H as [-> H]. cbn [mg_v4 mg_v6].
  apply mgmt_af_spec in E4; [|lia]. apply mgmt_af_spec in E6; [|lia]. split; [|split].
  - destruct v4, v6; try discriminate; (left; discriminate) || (right; discriminate).
  - destruct v4 as [s|].
    + destruct E4 as [_ [net [-> [-> L]]]]. auto.
    + destruct E4 as [[-> _]|C]; [auto|congruence].
  - destruct v6 as [s|].
    + destruct E6 as [_ [net [-> [-> L]]]]. auto.
    + destruct E6 as [[-> _]|C]; [auto|congruence].
Qed.

(* The result is reported exactly when there is no pool, no start offset, or the node id does not fit. *)
Theorem mgmt_errors : forall str6 pool id m, 0 < id ->
  (snd (augment_mgmt str6 pool id m) = [] <->
   mg_v4 m <> None \/ mg_v6 m <> None \/
   exists p, pool = Some p /\ (mp_v4 p <> None \/ mp_v6 p <> None) /\ mp_start p <> 0
     /\ (forall net, mp_v4 p = Some net -> id + mp_start p < 2 ^ (32 - snd net))
     /\ (forall net, mp_v6 p = Some net -> id + mp_start p < 2 ^ (128 - snd net))).
Proof.
  intros str6 pool id m Hid. unfold augment_mgmt. destruct (mg_v4 m) as [a|]; [cbn [snd]; split; auto; intros _; left; discriminate|].
  destruct (mg_v6 m) as [a|]; [cbn [snd]; split; auto; intros _; right; left; discriminate|].
  destruct pool as [p|].
  2: { cbn [snd]. split; [discriminate|]. intros [C|[C|[p [C _]]]]; congruence. }
  assert (A : forall bits str pfx, snd (mgmt_af bits str pfx (mp_start p) id) = [] <->
     (pfx = None \/ (mp_start p <> 0 /\ forall net, pfx = Some net -> id + mp_start p < 2 ^ (bits - snd net)))).
  { intros bits str pfx. unfold mgmt_af, net_index. destruct pfx as [net|]; [|cbn; split; auto].
    destruct (Z.eqb_spec (mp_start p) 0) as [E|E].
    - cbn. split; [discriminate|]. intros [C|[C _]]; congruence.
    - destruct (Z.ltb_spec (id + mp_start p) (2 ^ (bits - snd net))) as [L|L]; cbn; split; auto.
      + intros _. right. split; auto. intros n En. injection En as <-. auto.
      + discriminate.
      + intros [C|[_ C]]; [discriminate|]. specialize (C net eq_refl). lia. }
  assert (B : forall bits str pfx, snd (mgmt_af bits str pfx (mp_start p) id) = [] -> (fst (mgmt_af bits str pfx (mp_start p) id) = None <-> pfx = None)).
  { intros bits str pfx. unfold mgmt_af, net_index. destruct pfx as [net|]; [|cbn; tauto].
    destruct (mp_start p =? 0); [discriminate|]. destruct (id + mp_start p <? 2 ^ (bits - snd net)); cbn; [|discriminate]. intros _. split; discriminate. }
  pose proof (A 32 ipv4_str (mp_v4 p)) as A4. pose proof (B 32 ipv4_str (mp_v4 p)) as B4.
  pose proof (A 128 str6 (mp_v6 p)) as A6. pose proof (B 128 str6 (mp_v6 p)) as B6.
  destruct (mgmt_af 32 ipv4_str (mp_v4 p) (mp_start p) id) as [v4 e4]. destruct (mgmt_af 128 str6 (mp_v6 p) (mp_start p) id) as [v6 e6].
  cbn [fst snd] in *. split.
  - intros H. apply app_eq_nil in H. destruct H as [-> H]. apply app_eq_nil in H. destruct H as [-> H].
    right. right. exists p. split; auto.
    assert (N : mp_v4 p <> None \/ mp_v6 p <> None).
    { destruct v4; [left; intros C; apply B4 in C; auto; discriminate|]. destruct v6; [right; intros C; apply B6 in C; auto; discriminate|]. discriminate. }
    split; auto.
    assert (S0 : mp_start p <> 0).
    { destruct N as [N|N].
      - destruct (proj1 A4 eq_refl) as [C|[C _]]; congruence.
      - destruct (proj1 A6 eq_refl) as [C|[C _]]; congruence. }
    split; auto. split.
    + intros net En. destruct (proj1 A4 eq_refl) as [C|[_ C]]; [congruence|auto].
    + intros net En. destruct (proj1 A6 eq_refl) as [C|[_ C]]; [congruence|auto].
  - intros [C|[C|[p' [E [N [S0 [L4 L6]]]]]]]; try congruence. injection E as <-.
    assert (e4 = []) as -> by (apply A4; auto). assert (e6 = []) as -> by (apply A6; auto). cbn [app].
    destruct v4 as [a|]; auto. destruct v6 as [a|]; auto. exfalso. destruct N as [N|N]; apply N; [apply B4|apply B6]; auto.
Qed.

(* Addresses from the pool differ for nodes with different node ids. *)
Theorem mgmt_pool_unique : forall str6 p id1 id2 mac1 mac2 m1 m2 e1 e2,
  (forall a b, 0 <= a < 2 ^ 128 -> 0 <= b < 2 ^ 128 -> str6 a = str6 b -> a = b) ->
  (forall net, mp_v4 p = Some net -> net_ok 32 net) -> (forall net, mp_v6 p = Some net -> net_ok 128 net) -> 0 <= mp_start p ->
  0 < id1 -> 0 < id2 -> id1 <> id2 ->
  augment_mgmt str6 (Some p) id1 (mk_mgmt None None mac1) = (m1, e1) -> augment_mgmt str6 (Some p) id2 (mk_mgmt None None mac2) = (m2, e2) ->
  (mg_v4 m1 <> None -> mg_v4 m1 <> mg_v4 m2) /\ (mg_v6 m1 <> None -> mg_v6 m1 <> mg_v6 m2).
Proof.
  intros str6 p id1 id2 mac1 mac2 m1 m2 e1 e2 Inj N4 N6 Hs H1 H2 N A1 A2. unfold augment_mgmt in A1, A2. cbn [mg_v4 mg_v6] in A1, A2.
  destruct (mgmt_af 32 ipv4_str (mp_v4 p) (mp_start p) id1) as [v4 e4] eqn:E4. destruct (mgmt_af 128 str6 (mp_v6 p) (mp_start p) id1) as [v6 e6] eqn:E6.
  destruct (mgmt_af 32 ipv4_str (mp_v4 p) (mp_start p) id2) as [w4 f4] eqn:F4. destruct (mgmt_af 128 str6 (mp_v6 p) (mp_start p) id2) as [w6 f6] eqn:F6.
  injection A1 as <- _. injection A2 as <- _. cbn [mg_v4 mg_v6].
  apply mgmt_af_spec in E4; [|lia]. apply mgmt_af_spec in E6; [|lia]. apply mgmt_af_spec in F4; [|lia]. apply mgmt_af_spec in F6; [|lia].
  split; intros NN C.
  - destruct v4 as [a|]; [|congruence]. destruct w4 as [b|]; [|discriminate]. injection C as C.
    destruct E4 as [_ [n1 [P1 [-> L1]]]]. destruct F4 as [_ [n2 [P2 [-> L2]]]]. assert (n2 = n1) by congruence. subst n2.
    destruct (N4 n1 P1) as [K1 [K2 K3]]. apply ipv4_str_inj in C; lia.
  - destruct v6 as [a|]; [|congruence]. destruct w6 as [b|]; [|discriminate]. injection C as C.
    destruct E6 as [_ [n1 [P1 [-> L1]]]]. destruct F6 as [_ [n2 [P2 [-> L2]]]]. assert (n2 = n1) by congruence. subst n2.
    destruct (N6 n1 P1) as [K1 [K2 K3]]. apply Inj in C; lia.
Qed.

(* The default pool: node 155 gets the broadcast address of the management network. *)
Definition default_mgmt : mgmt_pool := mk_mpool (Some (192 * 16777216 + 168 * 65536 + 121 * 256, 24)) None 100 (Some [8; 79; 169; 0; 0; 0]).

Theorem mgmt_broadcast_refuted : exists id, 1 <= id <= 250 /\
  augment_mgmt (fun _ => EmptyString) (Some default_mgmt) id (mk_mgmt None None None)
  = (mk_mgmt (Some "192.168.121.255"%string) None (Some "08:4f:a9:9b:00:00"%string), []).
Proof. exists 155. split; [lia|]. vm_compute. reflexivity. Qed.

Example mgmt_case : augment_mgmt (fun _ => EmptyString) (Some default_mgmt) 1 (mk_mgmt None None None)
  = (mk_mgmt (Some "192.168.121.101"%string) None (Some "08:4f:a9:01:00:00"%string), [])
  /\ snd (augment_mgmt (fun _ => EmptyString) (Some default_mgmt) 156 (mk_mgmt None None None)) = [MgmtRange; MgmtNone]
  /\ net_ok 32 (192 * 16777216 + 168 * 65536 + 121 * 256, 24).
Proof. split; [vm_compute; reflexivity|]. split; [vm_compute; reflexivity|]. unfold net_ok. cbn [fst snd]. lia. Qed.

(* ------------------------------------------------------------------ *)
(* MAC addresses                                                        *)

Lemma hex_char_inj : forall a b, 0 <= a < 16 -> 0 <= b < 16 -> hex_char a = hex_char b -> a = b.
Proof.
  intros a b Ha Hb H. unfold hex_char in H.
  apply (f_equal nat_of_ascii) in H. rewrite !nat_ascii_embedding in H.
  - destruct (Z.ltb_spec a 10); destruct (Z.ltb_spec b 10); lia.
  - destruct (Z.ltb_spec b 10); lia.
  - destruct (Z.ltb_spec a 10); lia.
Qed.

Lemma hex_octet_inj : forall a b, 0 <= a < 256 -> 0 <= b < 256 -> hex_octet a = hex_octet b -> a = b.
Proof.
  intros a b Ha Hb H. unfold hex_octet in H. assert (H1 : hex_char (a / 16) = hex_char (b / 16)) by congruence.
  assert (H2 : hex_char (a mod 16) = hex_char (b mod 16)) by congruence.
  pose proof (Z.div_mod a 16 ltac:(lia)). pose proof (Z.div_mod b 16 ltac:(lia)).
  pose proof (Z.mod_pos_bound a 16 ltac:(lia)). pose proof (Z.mod_pos_bound b 16 ltac:(lia)).
  apply hex_char_inj in H1; [|split; [apply Z.div_pos; lia|apply Z.div_lt_upper_bound; lia]|split; [apply Z.div_pos; lia|apply Z.div_lt_upper_bound; lia]].
  apply hex_char_inj in H2; auto. lia.
Qed.

Lemma mac_cons : forall x y l, mac_text (x :: y :: l) = String (hex_char (x / 16)) (String (hex_char (x mod 16)) (String ":" (mac_text (y :: l)))).
Proof. reflexivity. Qed.

(* MAC addresses from the pool differ for nodes with different ids, for every MAC prefix and all ids up to 255. *)
Theorem mgmt_macs_unique : forall str6 pool p a b c d e f v4a v6a v4b v6b id1 id2, pool = Some p -> mp_mac p = Some [a; b; c; d; e; f] ->
  0 < id1 < 256 -> 0 < id2 < 256 -> id1 <> id2 ->
  mg_mac (fst (augment_mgmt str6 pool id1 (mk_mgmt v4a v6a None))) <> mg_mac (fst (augment_mgmt str6 pool id2 (mk_mgmt v4b v6b None))).
Proof.
  intros str6 pool p a b c d e f v4a v6a v4b v6b id1 id2 -> Hm H1 H2 N.
  assert (M : forall v4 v6 id, mg_mac (fst (augment_mgmt str6 (Some p) id (mk_mgmt v4 v6 None))) = Some (mac_text [a; b; c; id; e; f])).
  { intros v4 v6 id. unfold augment_mgmt. cbn [mg_mac mg_v4 mg_v6]. rewrite Hm.
    destruct v4 as [x|]; [reflexivity|]. destruct v6 as [x|]; [reflexivity|].
    destruct (mgmt_af 32 ipv4_str (mp_v4 p) (mp_start p) id). destruct (mgmt_af 128 str6 (mp_v6 p) (mp_start p) id). reflexivity. }
  rewrite !M. intros E0. assert (E : mac_text [a; b; c; id1; e; f] = mac_text [a; b; c; id2; e; f]) by congruence. rewrite !mac_cons in E.
  assert (E' : hex_octet id1 = hex_octet id2) by (unfold hex_octet; congruence).
  apply hex_octet_inj in E'; lia.
Qed.

(* ------------------------------------------------------------------ *)
(* Duplicate addresses                                                  *)

Definition values (l : list (string * option string)) : list string := flat_map (fun na => match snd na with Some a => [a] | None => [] end) l.

Lemma dup_addr_spec : forall l used, dup_addr used l = [] <-> NoDup (values l) /\ forall a, In a (values l) -> dget a used = None.
Proof.
  induction l as [|[n [a|]] l IH]; intros used; cbn [dup_addr].
  - split; [|auto]. intros _. split; [constructor|intros a []].
  - change (values ((n, Some a) :: l)) with (a :: values l). destruct (dget a used) as [n'|] eqn:D.
    + split; [discriminate|]. intros [_ C]. rewrite (C a (or_introl eq_refl)) in D. discriminate.
    + rewrite IH. split.
      * intros [ND F]. split.
        -- constructor; auto. intros C. apply F in C. rewrite dget_dset_same in C. discriminate.
        -- intros x [<-|Hx]; auto. pose proof (F x Hx) as Fx. destruct (String.eqb_spec x a) as [E|N]; [subst; auto|]. rewrite dget_dset_other in Fx; auto.
      * intros [ND F]. inversion ND as [|? ? N1 N2]; subst. split; auto. intros x Hx. rewrite dget_dset_other; [apply F; right; auto|]. intros ->. contradiction.
  - change (values ((n, None) :: l)) with (values l). apply IH.
Qed.

Definition attr_values (f : mgmt -> option string) (nodes : dict mgmt) : list string := values (map (fun nm => (fst nm, f (snd nm))) nodes).

(* Nothing is reported exactly when no two nodes share an IPv4, IPv6 or MAC address (as written). *)
Theorem mgmt_duplicates_reported : forall nodes, check_duplicate_mgmt_addr nodes = [] <->
  NoDup (attr_values mg_v4 nodes) /\ NoDup (attr_values mg_v6 nodes) /\ NoDup (attr_values mg_mac nodes).
Proof.
  intros nodes. unfold check_duplicate_mgmt_addr, attr_values.
  assert (A : forall l, dup_addr [] l = [] <-> NoDup (values l)) by (intros l; rewrite dup_addr_spec; cbn; tauto).
  rewrite <- !A. split.
  - intros H. apply app_eq_nil in H. destruct H as [H1 H]. apply app_eq_nil in H. tauto.
  - intros [-> [-> ->]]. auto.
Qed.

(* and every report names a node and an earlier node with the same address *)
Theorem mgmt_duplicates_sound : forall nodes x y, In (x, y) (check_duplicate_mgmt_addr nodes) ->
  exists mx my, In (x, mx) nodes /\ In (y, my) nodes /\
  ((mg_v4 mx <> None /\ mg_v4 mx = mg_v4 my) \/ (mg_v6 mx <> None /\ mg_v6 mx = mg_v6 my) \/ (mg_mac mx <> None /\ mg_mac mx = mg_mac my)).
Proof.
  intros nodes x y H.
  assert (S : forall l used x y, In (x, y) (dup_addr used l) -> exists a, In (x, Some a) l /\ (In (y, Some a) l \/ dget a used = Some y)).
  { induction l as [|[n [a|]] l IH]; intros used u v Hin; cbn [dup_addr] in Hin.
    - destruct Hin.
    - destruct (dget a used) as [n'|] eqn:D.
      + destruct Hin as [E|Hin].
        * injection E as <- <-. exists a. split; [left; auto|auto].
        * apply IH in Hin. destruct Hin as [b [H1 [H2|H2]]]; exists b; (split; [right; auto|]); auto. left. right. auto.
      + apply IH in Hin. destruct Hin as [b [H1 H2]]. exists b. split; [right; auto|]. destruct H2 as [H2|H2]; [left; right; auto|].
        destruct (String.eqb_spec b a) as [E|N].
        * rewrite E, dget_dset_same in H2. injection H2 as <-. rewrite E. left. left. auto.
        * rewrite dget_dset_other in H2 by auto. auto.
    - apply IH in Hin. destruct Hin as [b [H1 [H2|H2]]]; exists b; (split; [right; auto|]); auto. left. right. auto. }
  assert (T : forall f, In (x, y) (dup_addr [] (map (fun nm => (fst nm, f (snd nm))) nodes)) ->
     exists mx my, In (x, mx) nodes /\ In (y, my) nodes /\ f mx <> None /\ f mx = f my).
  { intros f Hf. apply S in Hf. destruct Hf as [a [H1 [H2|H2]]]; [|discriminate]. apply in_map_iff in H1, H2.
    destruct H1 as [[n1 m1] [E1 I1]]. destruct H2 as [[n2 m2] [E2 I2]]. cbn [fst snd] in *. injection E1 as <- F1. injection E2 as <- F2.
    exists m1, m2. split; auto. split; auto. split; congruence. }
  unfold check_duplicate_mgmt_addr in H. rewrite !in_app_iff in H. destruct H as [H|[H|H]]; apply T in H;
    destruct H as [mx [my [I1 [I2 [I3 I4]]]]]; exists mx, my; auto 10.
Qed.

Example mgmt_dup_case : check_duplicate_mgmt_addr
   [("a", mk_mgmt (Some "192.168.121.101") None None); ("b", mk_mgmt (Some "192.168.121.102") None (Some "aa")); ("c", mk_mgmt (Some "192.168.121.101") None (Some "aa"))]%string
   = [("c", "a"); ("c", "b")]%string.
Proof. reflexivity. Qed.

(* ------------------------------------------------------------------ *)
(* Forwarded ports                                                      *)

(* Host ports of different nodes differ when port ranges of services are at least [n] apart and node ids
   are between 1 and n; the device port is the one of the service. *)
Theorem forwarded_ports_unique : forall fmap pmap n id1 id2 h d1 d2, NoDup (map snd fmap) ->
  (forall s1 s2 x y, In (s1, x) fmap -> In (s2, y) fmap -> x <> y -> n <= Z.abs (x - y)) ->
  1 <= id1 <= n -> 1 <= id2 <= n ->
  In (h, d1) (get_forwarded_ports fmap pmap id1) -> In (h, d2) (get_forwarded_ports fmap pmap id2) -> id1 = id2 /\ d1 = d2.
Proof.
  intros fmap pmap n id1 id2 h d1 d2 ND Far H1 H2 I1 I2. unfold get_forwarded_ports in I1, I2. apply in_flat_map in I1, I2.
  destruct I1 as [[s1 x1] [F1 P1]]. destruct I2 as [[s2 x2] [F2 P2]]. cbn [fst snd] in *.
  destruct (dget s1 pmap) as [p1|] eqn:D1; [|destruct P1]. destruct (dget s2 pmap) as [p2|] eqn:D2; [|destruct P2].
  destruct P1 as [E1|[]]. destruct P2 as [E2|[]]. injection E1 as E1 ->. injection E2 as E2 ->.
  destruct (Z.eq_dec x1 x2) as [E|N].
  - split; [lia|]. assert ((s1, x1) = (s2, x2)).
    { apply (NoDup_map_inv_in _ _ _ _ ND F1 F2). cbn. auto. }
    congruence.
  - specialize (Far _ _ _ _ F1 F2 N). lia.
Qed.

(* The ports of a node: one for every forwarded service known to netlab. *)
Theorem forwarded_ports_exact : forall fmap pmap id h d, In (h, d) (get_forwarded_ports fmap pmap id) <->
  exists s start, In (s, start) fmap /\ dget s pmap = Some d /\ h = start + id.
Proof.
  intros fmap pmap id h d. unfold get_forwarded_ports. rewrite in_flat_map. split.
  - intros [[s x] [F P]]. cbn [fst snd] in P. destruct (dget s pmap) as [p|] eqn:D; [|destruct P]. destruct P as [E|[]]. injection E as <- <-. eauto.
  - intros [s [x [F [D ->]]]]. exists (s, x). split; auto. cbn [fst snd]. rewrite D. left. auto.
Qed.

(* VirtualBox defaults *)
Example forwarded_case :
  let fmap := [("ssh", 2000); ("http", 8000); ("netconf", 3000)]%string in
  get_forwarded_ports fmap [("ssh", 22); ("netconf", 830); ("http", 80)]%string 7 = [(2007, 22); (8007, 80); (3007, 830)]
  /\ (forall s1 s2 x y, In (s1, x) fmap -> In (s2, y) fmap -> x <> y -> 250 <= Z.abs (x - y)).
Proof.
  split; [reflexivity|]. cbn. intros s1 s2 x y H1 H2 N. intuition (repeat match goal with H : (_, _) = (_, _) |- _ => injection H as <- <- end; lia).
Qed.

(* Configured management addresses are kept and never mixed with addresses from the pool; configured MAC addresses are
   kept. *)
Theorem mgmt_configured_kept : forall str6 pool id m m' e, augment_mgmt str6 pool id m = (m', e) ->
  (mg_v4 m <> None \/ mg_v6 m <> None -> mg_v4 m' = mg_v4 m /\ mg_v6 m' = mg_v6 m) /\ (mg_mac m <> None -> mg_mac m' = mg_mac m).
Proof.
  intros str6 pool id m m' e H. unfold augment_mgmt in H.
  destruct (mg_v4 m) as [a|] eqn:E4; [|destruct (mg_v6 m) as [b|] eqn:E6].
  - injection H as <- _. cbn [mg_v4 mg_v6 mg_mac]. split; [auto|]. destruct (mg_mac m); congruence.
  - injection H as <- _. cbn [mg_v4 mg_v6 mg_mac]. split; [auto|]. destruct (mg_mac m); congruence.
  - split; [intros [C|C]; congruence|]. intros M. destruct (mg_mac m) as [x|]; [|congruence]. destruct pool as [p|].
    + destruct (mgmt_af 32 ipv4_str (mp_v4 p) (mp_start p) id), (mgmt_af 128 str6 (mp_v6 p) (mp_start p) id). injection H as <- _. reflexivity.
    + injection H as <- _. reflexivity.
Qed.

Example mgmt_configured_case :
  augment_mgmt (fun _ => EmptyString) (Some default_mgmt) 1 (mk_mgmt (Some "10.0.0.9"%string) None (Some "52:00:00:00:00:01"%string))
  = (mk_mgmt (Some "10.0.0.9"%string) None (Some "52:00:00:00:00:01"%string), []).
Proof. reflexivity. Qed.

Print Assumptions mgmt_from_pool.
Print Assumptions mgmt_errors.
Print Assumptions mgmt_pool_unique.
Print Assumptions mgmt_broadcast_refuted.
Print Assumptions mgmt_macs_unique.
Print Assumptions mgmt_duplicates_reported.
Print Assumptions mgmt_duplicates_sound.
Print Assumptions forwarded_ports_unique.
Print Assumptions forwarded_ports_exact.
Print Assumptions mgmt_configured_kept.
