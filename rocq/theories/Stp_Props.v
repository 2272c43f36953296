(* Properties C159 and C160: port types and errors of the STP module. *)
From Coq Require Import String ZArith Lia Bool List.
From Verif Require Import Base Box_Model Stp_Model.
Import ListNotations.
Local Open Scope string_scope.
Local Open Scope list_scope.

(* ------------------------------------------------------------------ *)
(* Specification                                                        *)

Definition port_type (i : sintf) (t : option string) : Prop :=
  match t with
  | Some t => exists d, si_stp i = Some d /\ dget "port_type" d = Some (VStr t)
  | None => forall d v, si_stp i = Some d -> dget "port_type" d = Some v -> v = VNull
  end.

(* a layer-2 port *)
Definition l2_port (i : sintf) : Prop := si_ipv4 i = false /\ si_ipv6 i = false /\ si_virtual i = false.

(* the nodes an interface is connected to *)
Definition connected (i : sintf) (n : string) : Prop :=
  match si_ngb i with
  | Some l => In n l
  | None => exists l, si_saved i = Some l /\ In n l
  end.

(* neighbors of an interface are not removed without the attribute *)
Definition sane (i : sintf) : Prop := si_ngb i = Some [] -> si_saved i = None \/ si_saved i = Some [].

(* only hosts are connected, and there is a host *)
Definition stub (role : string -> option string) (i : sintf) : Prop :=
  (exists n, connected i n) /\ forall n, connected i n -> role n = Some "host".

Definition stub_type (topo : stopo) (t : string) : Prop := st_stub topo = Some t /\ t <> "none".

(* the port type an interface should get *)
Definition wanted (topo : stopo) (role : string -> option string) (node : snode) (i : sintf) (t : option string) : Prop :=
  (exists s, stub_type topo s /\ stub role i /\ t = Some s) \/
  (~ (exists s, stub_type topo s /\ stub role i) /\
   ((exists v vd s, si_access i = Some v /\ dget v (sn_vlans node) = Some vd /\ sv_type vd = Some s /\ t = Some s) \/
    ((forall v vd, si_access i = Some v -> dget v (sn_vlans node) = Some vd -> sv_type vd = None) /\ t = sn_type node))).

(* the interface differs in the port type only *)
Definition same_but_type (i j : sintf) : Prop :=
  si_name j = si_name i /\ si_ipv4 j = si_ipv4 i /\ si_ipv6 j = si_ipv6 i /\ si_virtual j = si_virtual i /\ si_access j = si_access i /\
  si_ngb j = si_ngb i /\ si_saved j = si_saved i /\
  forall k, k <> "port_type" -> forall v, (exists d, si_stp j = Some d /\ dget k d = Some v) <-> (exists d, si_stp i = Some d /\ dget k d = Some v).

(* ------------------------------------------------------------------ *)

Lemma same_refl : forall i, same_but_type i i.
Proof. intros i. repeat (split; [reflexivity|]). intros k K v. reflexivity. Qed.

Lemma same_set : forall t i, same_but_type i (set_type t i).
Proof.
  intros t i. repeat (split; [reflexivity|]). intros k K v. cbn [set_type si_stp]. split.
  - intros [d [E D]]. injection E as E. subst d. rewrite dget_dset_other in D by exact K. destruct (si_stp i) as [d|]; [|discriminate D].
    exists d. split; [reflexivity|exact D].
  - intros [d [E D]]. rewrite E. eexists. split; [reflexivity|]. rewrite dget_dset_other by exact K. exact D.
Qed.

Lemma port_set : forall t i, port_type (set_type t i) (Some t).
Proof. intros t i. cbn. eexists. split; [reflexivity|]. apply dget_dset_same. Qed.

Lemma no_type_spec : forall i, no_type i = true <-> port_type i None.
Proof.
  intros i. unfold no_type, port_type. destruct (si_stp i) as [d|].
  - split.
    + intros H d' v E D. injection E as E. subst d'. rewrite D in H. destruct v; try discriminate H. reflexivity.
    + intros H. destruct (dget "port_type" d) as [v|] eqn:D; [|reflexivity]. rewrite (H d v eq_refl D). reflexivity.
  - split; [intros _ d v E; discriminate E|reflexivity].
Qed.

Lemma supports_spec : forall i, supports_stp i = true <-> l2_port i.
Proof.
  intros i. unfold supports_stp, l2_port. destruct (si_ipv4 i), (si_ipv6 i), (si_virtual i); cbn; split; intros H; try discriminate H;
    try (destruct H as [A [B C]]; first [discriminate A|discriminate B|discriminate C]); repeat split.
Qed.

Lemma stub_spec : forall role i, sane i -> (is_stub role i = true <-> stub role i).
Proof.
  intros role i S. unfold is_stub, stub, connected, sane in *. rewrite andb_true_iff, forallb_forall.
  assert (R : forall n, match role n with Some r => String.eqb r "host" | None => false end = true <-> role n = Some "host").
  { intros n. destruct (role n) as [r|]; [|split; discriminate]. rewrite String.eqb_eq. split; [intros E; subst; reflexivity|intros E; injection E as E; exact E]. }
  destruct (si_ngb i) as [l|].
  - split.
    + intros [A B]. split; [|intros n I; apply R; apply B; exact I].
      destruct l as [|x l]; [|exists x; left; reflexivity]. exfalso. cbn in A.
      destruct (S eq_refl) as [Q|Q]; rewrite Q in A; discriminate A.
    + intros [[n I] B]. split; [destruct l as [|x l]; [destruct I|reflexivity]|]. intros m J. apply R. apply B. exact J.
  - split.
    + intros [A B]. destruct (si_saved i) as [l|]; [|discriminate A]. cbn [some_of nonempty orb] in A, B. split.
      * destruct l as [|x l]; [discriminate A|]. exists x, (x :: l). split; [reflexivity|left; reflexivity].
      * intros n [l' [E I]]. injection E as E. subst l'. apply R. apply B. exact I.
    + intros [[n [l [E I]]] B]. rewrite E. cbn [some_of nonempty orb]. split; [destruct l; [destruct I|reflexivity]|].
      intros m J. apply R. apply B. exists l. split; [exact E|exact J].
Qed.

Lemma intf_type_ok : forall dev topo role node i j, sane i -> intf_type dev topo role node i = Ok j ->
  same_but_type i j /\
  (sd_port_type dev = false \/ ~ port_type i None \/ ~ l2_port i -> j = i) /\
  (sd_port_type dev = true -> port_type i None -> l2_port i -> exists t, wanted topo role node i t /\ port_type j t).
Proof.
  intros dev topo role node i j S H. unfold intf_type in H.
  destruct (sd_port_type dev); cbn [negb] in H.
  2:{ injection H as H. subst j. split; [apply same_refl|]. split; [reflexivity|discriminate]. }
  destruct (no_type i && supports_stp i) eqn:C.
  2:{ injection H as H. subst j. split; [apply same_refl|]. split; [reflexivity|]. intros _ P L. apply no_type_spec in P. apply supports_spec in L.
      rewrite P, L in C. discriminate C. }
  apply andb_true_iff in C. destruct C as [C1 C2]. apply no_type_spec in C1. apply supports_spec in C2.
  split; [|split].
  - destruct (_ && _)%bool; [injection H as H; subst; apply same_set|].
    assert (NT : same_but_type i (node_type node i)) by (unfold node_type; destruct (sn_type node); [apply same_set|apply same_refl]).
    destruct (si_access i) as [v|]; [|injection H as H; subst; exact NT].
    destruct (dget v (sn_vlans node)) as [vd|]; [|discriminate H]. destruct (sv_type vd); injection H as H; subst; [apply same_set|exact NT].
  - intros [Q|[Q|Q]]; [discriminate Q|contradiction|contradiction].
  - intros _ _ _. set (sb := match st_stub topo with Some s => s | None => "none" end) in *.
    destruct (negb (String.eqb sb "none") && is_stub role i) eqn:SB.
    + apply andb_true_iff in SB. destruct SB as [S1 S2]. apply negb_true_iff, String.eqb_neq in S1. apply (stub_spec role i S) in S2.
      injection H as H. subst j. exists (Some sb). split; [|apply port_set]. left. exists sb. split; [|split; [exact S2|reflexivity]].
      unfold stub_type, sb in *. destruct (st_stub topo) as [s|]; [split; [reflexivity|exact S1]|exfalso; apply S1; reflexivity].
    + assert (NS : ~ (exists s, stub_type topo s /\ stub role i)).
      { intros [s [[E N] ST]]. apply (stub_spec role i S) in ST. unfold sb in SB. rewrite E, ST in SB. apply String.eqb_neq in N. rewrite N in SB. discriminate SB. }
      assert (NT : port_type (node_type node i) (sn_type node)).
      { unfold node_type. destruct (sn_type node) as [t|]; [apply port_set|exact C1]. }
      destruct (si_access i) as [v|] eqn:A.
      * destruct (dget v (sn_vlans node)) as [vd|] eqn:V; [|discriminate H]. destruct (sv_type vd) as [t|] eqn:T; injection H as H; subst j.
        -- exists (Some t). split; [|apply port_set]. right. split; [exact NS|]. left. exists v, vd, t.
           split; [exact A|]. split; [exact V|]. split; [exact T|reflexivity].
        -- exists (sn_type node). split; [|exact NT]. right. split; [exact NS|]. right. split; [|reflexivity].
           intros v' vd' E1 E2. rewrite A in E1. injection E1 as E1. subst v'. rewrite V in E2. injection E2 as E2. subst vd'. exact T.
      * injection H as H. subst j. exists (sn_type node). split; [|exact NT]. right. split; [exact NS|]. right. split; [|reflexivity].
        intros v' vd' E1. rewrite A in E1. discriminate E1.
Qed.

Lemma types_forall : forall f l l', intf_types f l = Ok l' <-> Forall2 (fun i j => f i = Ok j) l l'.
Proof.
  intros f. induction l as [|i r IH]; intros l'; cbn [intf_types].
  - split; [intros H; injection H as H; subst; constructor|intros H; inversion H; reflexivity].
  - split.
    + intros H. destruct (f i) as [j|] eqn:E; [|discriminate H]. destruct (intf_types f r) as [r'|] eqn:R; [|discriminate H].
      injection H as H. subst l'. constructor; [exact E|]. apply IH. reflexivity.
    + intros H. inversion H as [|? ? ? ? A B]; subst. rewrite A. apply IH in B. rewrite B. reflexivity.
Qed.

(* Port types of the interfaces: an interface that has a port type, an address, or is virtual keeps what it has; other
   interfaces get the stub port type when all their neighbors are hosts, else the port type of the access VLAN, else the
   port type of the node. *)
Theorem port_types_exact : forall dev topo role node l e, (forall i, In i (sn_intf node) -> sane i) ->
  stp_transform dev topo role node = Ok (l, e) ->
  (enabled node = false -> l = sn_intf node /\ e = []) /\
  Forall2 (fun i j => same_but_type i j /\
    (enabled node = false \/ sd_port_type dev = false \/ ~ port_type i None \/ ~ l2_port i -> j = i) /\
    (enabled node = true -> sd_port_type dev = true -> port_type i None -> l2_port i ->
     exists t, wanted topo role node i t /\ port_type j t)) (sn_intf node) l.
Proof.
  intros dev topo role node l e S H. unfold stp_transform in H. destruct (enabled node); cbn [negb] in H.
  - destruct (intf_types (intf_type dev topo role node) (sn_intf node)) as [l0|x] eqn:T; [|discriminate H]. injection H as H _. subst l0.
    split; [discriminate|]. apply types_forall in T. revert S. induction T as [|i j r r' E T IH]; intros S; constructor.
    + destruct (intf_type_ok _ _ _ _ _ _ (S i (or_introl eq_refl)) E) as [A [B C]]. split; [exact A|]. split.
      * intros [Q|Q]; [discriminate Q|exact (B Q)].
      * intros _. exact C.
    + apply IH. intros x I. apply S. right; exact I.
  - injection H as H1 H2. subst. split; [intros _; split; reflexivity|]. clear S. induction (sn_intf node) as [|i r IH]; constructor; [|exact IH].
    split; [apply same_refl|]. split; [reflexivity|discriminate].
Qed.

(* The access VLAN of every port is among the VLANs of the node, or the transformation ends with an exception. *)
Theorem stp_crash_iff : forall dev topo role node, (forall i, In i (sn_intf node) -> sane i) ->
  (exists x, stp_transform dev topo role node = Err x) <->
  enabled node = true /\ sd_port_type dev = true /\
  exists i v, In i (sn_intf node) /\ port_type i None /\ l2_port i /\ ~ (exists s, stub_type topo s /\ stub role i) /\
    si_access i = Some v /\ dget v (sn_vlans node) = None.
Proof.
  intros dev topo role node S. unfold stp_transform. destruct (enabled node); cbn [negb].
  2:{ split; [intros [x H]; discriminate H|intros [H _]; discriminate H]. }
  assert (ONE : forall i, sane i -> (exists x, intf_type dev topo role node i = Err x) <->
    sd_port_type dev = true /\ port_type i None /\ l2_port i /\ ~ (exists s, stub_type topo s /\ stub role i) /\
    exists v, si_access i = Some v /\ dget v (sn_vlans node) = None).
  { intros i SI. unfold intf_type. destruct (sd_port_type dev); cbn [negb]; [|split; [intros [x H]; discriminate H|intros [H _]; discriminate H]].
    rewrite <- no_type_spec, <- supports_spec. destruct (no_type i); [|split; [intros [x H]; discriminate H|intros [_ [H _]]; discriminate H]].
    destruct (supports_stp i); [|split; [intros [x H]; discriminate H|intros [_ [_ [H _]]]; discriminate H]]. cbn [andb].
    set (sb := match st_stub topo with Some s => s | None => "none" end).
    assert (SBE : (negb (String.eqb sb "none") && is_stub role i)%bool = true <-> exists s, stub_type topo s /\ stub role i).
    { rewrite andb_true_iff, negb_true_iff, String.eqb_neq, (stub_spec role i SI). unfold stub_type, sb. destruct (st_stub topo) as [s|].
      - split; [intros [A B]; exists s; repeat split; [exact A|exact (proj1 B)|exact (proj2 B)]|intros [s' [[E N] B]]; injection E as E; subst s'; split; assumption].
      - split; [intros [A _]; exfalso; apply A; reflexivity|intros [s [[E _] _]]; discriminate E]. }
    destruct (negb (String.eqb sb "none") && is_stub role i)%bool.
    - split; [intros [x H]; discriminate H|]. intros [_ [_ [_ [N _]]]]. exfalso. apply N. apply SBE. reflexivity.
    - assert (N : ~ exists s, stub_type topo s /\ stub role i) by (intros Q; apply SBE in Q; discriminate Q).
      destruct (si_access i) as [v|]; [|split; [intros [x H]; discriminate H|intros [_ [_ [_ [_ [v [E _]]]]]]; discriminate E]].
      destruct (dget v (sn_vlans node)) as [vd|] eqn:V.
      + split; [intros [x H]; destruct (sv_type vd); discriminate H|]. intros [_ [_ [_ [_ [v' [E1 E2]]]]]]. injection E1 as E1. subst v'. rewrite V in E2. discriminate E2.
      + split; [|intros _; eexists; reflexivity]. intros _. repeat (split; [reflexivity|]). split; [exact N|]. exists v. split; [reflexivity|exact V]. }
  assert (ALL : forall l, (forall i, In i l -> sane i) ->
    ((exists x, intf_types (intf_type dev topo role node) l = Err x) <-> exists i, In i l /\ exists x, intf_type dev topo role node i = Err x)).
  { induction l as [|i r IH]; intros SL; cbn [intf_types]; [split; [intros [x H]; discriminate H|intros [i [[] _]]]|].
    assert (SR : forall i, In i r -> sane i) by (intros j I; apply SL; right; exact I). specialize (IH SR).
    destruct (intf_type dev topo role node i) as [j|x] eqn:E.
    - destruct (intf_types (intf_type dev topo role node) r) as [r'|y] eqn:R.
      + split; [intros [x H]; discriminate H|]. intros [k [[I|I] [x X]]]; [subst k; rewrite E in X; discriminate X|].
        destruct (proj2 IH (ex_intro _ k (conj I (ex_intro _ x X)))) as [z Z]. discriminate Z.
      + split; [|intros _; eexists; reflexivity]. intros _. destruct (proj1 IH (ex_intro _ y eq_refl)) as [k [I X]]. exists k. split; [right; exact I|exact X].
    - split; [|intros _; eexists; reflexivity]. intros _. exists i. split; [left; reflexivity|]. exists x. exact E. }
  assert (E : (exists x, match intf_types (intf_type dev topo role node) (sn_intf node) with Ok l => Ok (l,
            (if memS (protocol_of topo) (sd_protocols dev) then [] else [SProtocol (protocol_of topo)]) ++
            (match sn_priority node with
             | Some z => if Z.eqb z 0 || Z.eqb (z mod 4096) 0 then [] else [SPriority z]
             | None => []
             end) ++
            flat_map (check_intf dev) (sn_intf node) ++ check_vlans dev topo (sn_vlans node)) | Err e => Err e end = Err x) <->
          exists x, intf_types (intf_type dev topo role node) (sn_intf node) = Err x).
  { destruct (intf_types (intf_type dev topo role node) (sn_intf node)); [split; intros [x H]; discriminate H|split; intros _; eexists; reflexivity]. }
  rewrite E, (ALL _ S). split.
  - intros [i [I X]]. apply (ONE i (S i I)) in X. destruct X as [A [B [C [D [v [V1 V2]]]]]]. split; [reflexivity|]. split; [exact A|].
    exists i, v. repeat (split; [assumption|]). exact V2.
  - intros [_ [A [i [v [I [B [C [D [V1 V2]]]]]]]]]. exists i. split; [exact I|]. apply (ONE i (S i I)).
    repeat (split; [assumption|]). exists v. split; assumption.
Qed.

(* Every error, and nothing else, is reported. *)
Theorem stp_errors_exact : forall dev topo role node l e x, enabled node = true ->
  stp_transform dev topo role node = Ok (l, e) ->
  let proto := match st_protocol topo with Some p => p | None => "stp" end in
  In x e <->
  (x = SProtocol proto /\ ~ In proto (sd_protocols dev)) \/
  (exists z, x = SPriority z /\ sn_priority node = Some z /\ ~ (4096 | z)%Z) \/
  (exists i d, In i (sn_intf node) /\ si_stp i = Some d /\
     ((x = SL3 (si_name i) /\ (si_ipv4 i = true \/ si_ipv6 i = true)) \/
      (x = SEnable (si_name i) /\ In "enable" (dkeys d) /\ sd_per_port dev = false) \/
      (x = SPortType (si_name i) /\ In "port_type" (dkeys d) /\ sd_port_type dev = false))) \/
  (exists v d z, In (v, d) (sn_vlans node) /\ sv_priority d = Some z /\ z <> 0%Z /\
     ((x = SPvrst v proto /\ proto <> "pvrst") \/
      (x = SPvrstSupport v /\ proto = "pvrst" /\ ~ In "pvrst" (sd_protocols dev)))).
Proof.
  intros dev topo role node l e x EN H proto. unfold stp_transform in H. rewrite EN in H. cbn [negb] in H.
  destruct (intf_types (intf_type dev topo role node) (sn_intf node)) as [l0|y]; [|discriminate H]. injection H as _ H. subst e.
  fold proto. unfold protocol_of in *. fold proto. rewrite !in_app_iff.
  assert (P1 : In x (if memS proto (sd_protocols dev) then [] else [SProtocol proto]) <-> x = SProtocol proto /\ ~ In proto (sd_protocols dev)).
  { destruct (memS proto (sd_protocols dev)) eqn:M.
    - apply memS_true in M. split; [intros []|intros [_ N]; contradiction].
    - apply memS_false in M. split; [intros [Q|[]]; split; [symmetry; exact Q|exact M]|intros [Q _]; left; symmetry; exact Q]. }
  assert (P2 : In x (match sn_priority node with
             | Some z => if Z.eqb z 0 || Z.eqb (z mod 4096) 0 then [] else [SPriority z]
             | None => [] end) <-> exists z, x = SPriority z /\ sn_priority node = Some z /\ ~ (4096 | z)%Z).
  { destruct (sn_priority node) as [z|]; [|split; [intros []|intros [z [_ [Q _]]]; discriminate Q]].
    assert (D : (Z.eqb z 0 || Z.eqb (z mod 4096) 0)%bool = true <-> (4096 | z)%Z).
    { rewrite orb_true_iff, !Z.eqb_eq. rewrite Z.mod_divide by discriminate. split; [intros [Q|Q]; [subst; apply Z.divide_0_r|exact Q]|intros Q; right; exact Q]. }
    destruct (Z.eqb z 0 || Z.eqb (z mod 4096) 0)%bool.
    - split; [intros []|]. intros [z' [_ [Q N]]]. injection Q as Q. subst z'. exfalso. apply N. apply D. reflexivity.
    - split.
      + intros [Q|[]]. exists z. split; [symmetry; exact Q|]. split; [reflexivity|]. intros N. apply D in N. discriminate N.
      + intros [z' [Q1 [Q2 _]]]. injection Q2 as Q2. subst z'. left. symmetry. exact Q1. }
  assert (P3 : In x (flat_map (check_intf dev) (sn_intf node)) <->
    exists i d, In i (sn_intf node) /\ si_stp i = Some d /\
     ((x = SL3 (si_name i) /\ (si_ipv4 i = true \/ si_ipv6 i = true)) \/
      (x = SEnable (si_name i) /\ In "enable" (dkeys d) /\ sd_per_port dev = false) \/
      (x = SPortType (si_name i) /\ In "port_type" (dkeys d) /\ sd_port_type dev = false))).
  { rewrite in_flat_map.
    assert (Q : forall i d, si_stp i = Some d -> (In x (check_intf dev i) <->
      ((x = SL3 (si_name i) /\ (si_ipv4 i = true \/ si_ipv6 i = true)) \/
      (x = SEnable (si_name i) /\ In "enable" (dkeys d) /\ sd_per_port dev = false) \/
      (x = SPortType (si_name i) /\ In "port_type" (dkeys d) /\ sd_port_type dev = false)))).
    { intros i d E. unfold check_intf, has. rewrite E, !in_app_iff.
      assert (B : forall (b : bool) y, In x (if b then [y] else []) <-> x = y /\ b = true).
      { intros b y. destruct b; [split; [intros [Q|[]]; split; [symmetry; exact Q|reflexivity]|intros [Q _]; left; symmetry; exact Q]|split; [intros []|intros [_ Q]; discriminate Q]]. }
      rewrite !B, orb_true_iff, !andb_true_iff, !negb_true_iff, !dmem_true. reflexivity. }
    split.
    - intros [i [I X]]. destruct (si_stp i) as [d|] eqn:E; [|unfold check_intf in X; rewrite E in X; destruct X].
      exists i, d. split; [exact I|]. split; [exact E|]. apply (Q i d E). exact X.
    - intros [i [d [I [E X]]]]. exists i. split; [exact I|]. apply (Q i d E). exact X. }
  assert (P4 : In x (check_vlans dev topo (sn_vlans node)) <->
    exists v d z, In (v, d) (sn_vlans node) /\ sv_priority d = Some z /\ z <> 0%Z /\
     ((x = SPvrst v proto /\ proto <> "pvrst") \/
      (x = SPvrstSupport v /\ proto = "pvrst" /\ ~ In "pvrst" (sd_protocols dev)))).
  { unfold check_vlans, protocol_of. fold proto. rewrite in_flat_map. split.
    - intros [[v d] [I X]]. destruct (sv_priority d) as [z|] eqn:Z; [|destruct X]. destruct (Z.eqb_spec z 0) as [Q|Q]; [destruct X|].
      exists v, d, z. split; [exact I|]. split; [exact Z|]. split; [exact Q|].
      destruct (String.eqb_spec proto "pvrst") as [P|P]; cbn [negb] in X.
      + destruct (memS "pvrst" (sd_protocols dev)) eqn:M; [destruct X|]. apply memS_false in M. destruct X as [X|[]].
        right. split; [symmetry; exact X|]. split; [exact P|exact M].
      + destruct X as [X|[]]. left. split; [symmetry; exact X|exact P].
    - intros [v [d [z [I [Z [Q X]]]]]]. exists (v, d). split; [exact I|]. rewrite Z. apply Z.eqb_neq in Q. rewrite Q.
      destruct X as [[X P]|[X [P M]]].
      + apply String.eqb_neq in P. rewrite P. left. symmetry. exact X.
      + rewrite P. cbn [String.eqb Ascii.eqb Bool.eqb negb]. apply memS_false in M. rewrite M. left. symmetry. exact X. }
  rewrite P1, P2, P3, P4. tauto.
Qed.

(* ---------- a case ---------- *)

Definition ex_role (n : string) : option string := if String.eqb n "h" then Some "host" else Some "router".
Definition ex_intf (n : string) := mk_si n false false false None None (Some [n]) None.
Definition ex_node : snode := mk_sn None (Some "pvrst") (Some 8192%Z) (Some "normal") [("red", mk_sv (Some 4096%Z) (Some "network"))]
  [ex_intf "h"; ex_intf "r"; mk_si "v" false false false None (Some "red") None (Some ["h"; "r"]);
   mk_si "w" false false false (Some [("enable", VBool false)]) (Some "red") None (Some ["h"]);
   mk_si "ip" true false false None None (Some ["h"]) None].

Example ex_stp : stp_transform (mk_sd ["stp"] false true) (mk_st None (Some "edge")) ex_role ex_node =
  Ok ([set_type "edge" (ex_intf "h"); set_type "normal" (ex_intf "r"); set_type "network" (mk_si "v" false false false None (Some "red") None (Some ["h"; "r"]));
       mk_si "w" false false false (Some [("enable", VBool false); ("port_type", VStr "edge")]) (Some "red") None (Some ["h"]);
       mk_si "ip" true false false None None (Some ["h"]) None],
      [SEnable "w"; SPvrst "red" "stp"]).
Proof. reflexivity. Qed.

(* The protocol of a node is not checked: a node can ask for a protocol its device does not support, and per-VLAN
   priorities are refused although the node uses per-VLAN STP. *)
Theorem node_protocol_refuted : exists node,
  sn_protocol node = Some "pvrst" /\
  stp_transform (mk_sd ["stp"] true true) (mk_st None None) ex_role node = Ok ([], []) /\
  exists node2, sn_protocol node2 = Some "pvrst" /\
    stp_transform (mk_sd ["stp"; "pvrst"] true true) (mk_st None None) ex_role node2 = Ok ([], [SPvrst "red" "stp"]).
Proof.
  exists (mk_sn None (Some "pvrst") None None [] []). split; [reflexivity|]. split; [reflexivity|].
  exists (mk_sn None (Some "pvrst") None None [("red", mk_sv (Some 4096%Z) None)] []). split; reflexivity.
Qed.

Print Assumptions port_types_exact.
Print Assumptions stp_crash_iff.
Print Assumptions stp_errors_exact.
Print Assumptions node_protocol_refuted.
