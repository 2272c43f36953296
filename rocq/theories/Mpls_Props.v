(* Properties C125-C130: MPLS settings, LDP interfaces, labeled BGP sessions, MPLS/VPN and 6PE. *)
From Coq Require Import String ZArith Lia Bool List.
From Verif Require Import Base Box_Model Mpls_Model.
Import ListNotations.
Local Open Scope string_scope.
Local Open Scope list_scope.

(* ---------- C125: shortcuts ---------- *)

(* the value of a setting with a default: True is the default, False removes the setting *)
Inductive expands (dflt : val) : val -> option val -> Prop :=
| ex_true : expands dflt (VBool true) (Some dflt)
| ex_false : expands dflt (VBool false) None
| ex_dict : forall d d', 
    (forall k x, dget k d = Some x -> match dflt with
       | VDict dd => match dget k dd with
                     | Some y => match x with
                                 | VBool true => dget k d' = Some y
                                 | VBool false => dget k d' = None
                                 | VDict _ => True
                                 | _ => dget k d' = Some x
                                 end
                     | None => dget k d' = Some x
                     end
       | _ => dget k d' = Some x
       end) ->
    (forall k, dget k d = None -> dget k d' = None) -> expands dflt (VDict d) (Some (VDict d'))
| ex_other : forall v, (forall b, v <> VBool b) -> (forall d, v <> VDict d) -> expands dflt v (Some v).

Definition btd_go (defv : option val) : list (string * val) -> list (string * val) :=
  fix go (d : list (string * val)) : list (string * val) :=
    match d with
    | [] => []
    | (k, x) :: r =>
        match match defv with Some (VDict dd) => dget k dd | _ => None end with
        | Some y => match bool_to_defaults (Some y) x with
                    | Some x' => (k, x') :: go r
                    | None => go r
                    end
        | None => (k, x) :: go r
        end
    end.

Lemma btd_dict : forall defv d, bool_to_defaults defv (VDict d) = Some (VDict (btd_go defv d)).
Proof. reflexivity. Qed.

Definition btd_key (defv : option val) (k : string) (x : val) : option val :=
  match match defv with Some (VDict dd) => dget k dd | _ => None end with
  | Some y => bool_to_defaults (Some y) x
  | None => Some x
  end.

Lemma btd_go_keys : forall defv d k, In k (dkeys (btd_go defv d)) -> In k (dkeys d).
Proof.
  intros defv. induction d as [|[a x] d IH]; intros k I; cbn [btd_go] in I; [auto|].
  destruct (match defv with Some (VDict dd) => dget a dd | _ => None end) as [y|].
  - destruct (bool_to_defaults (Some y) x); [destruct I as [I|I]; [left; auto|right; auto]|right; auto].
  - destruct I as [I|I]; [left; auto|right; auto].
Qed.

Lemma btd_go_get : forall defv d k, NoDup (dkeys d) ->
  dget k (btd_go defv d) = match dget k d with Some x => btd_key defv k x | None => None end.
Proof.
  intros defv. induction d as [|[a x] d IH]; intros k N; cbn [btd_go]; [auto|]. inversion N as [|z l NI N']; subst.
  assert (M : dget a (btd_go defv d) = None).
  { destruct (dget a (btd_go defv d)) eqn:E; auto. exfalso. apply NI. apply (btd_go_keys defv). eapply dget_Some_key; eauto. }
  cbn [dget]. destruct (String.eqb_spec k a) as [->|Q].
  - unfold btd_key. destruct (match defv with Some (VDict dd) => dget a dd | _ => None end) as [y|].
    + destruct (bool_to_defaults (Some y) x) as [x'|]; [|exact M]. cbn [dget]. rewrite String.eqb_refl. auto.
    + cbn [dget]. rewrite String.eqb_refl. auto.
  - apply String.eqb_neq in Q. destruct (match defv with Some (VDict dd) => dget a dd | _ => None end) as [y|].
    + destruct (bool_to_defaults (Some y) x) as [x'|]; cbn [dget]; rewrite ?Q; auto.
    + cbn [dget]. rewrite Q. auto.
Qed.

Lemma btd_expands : forall dflt v, (forall d, v = VDict d -> NoDup (dkeys d)) -> expands dflt v (bool_to_defaults (Some dflt) v).
Proof.
  intros dflt v W. destruct v as [|[]|z|s|l|d]; try (apply ex_other; intros; discriminate); [constructor|constructor|].
  rewrite btd_dict. specialize (W d eq_refl). constructor.
  - intros k x G. assert (E : dget k (btd_go (Some dflt) d) = btd_key (Some dflt) k x) by (rewrite btd_go_get, G; auto).
    unfold btd_key in E. destruct dflt as [| | | | |dd]; auto. destruct (dget k dd) as [y|]; auto. destruct x as [|[]| | | |]; auto.
  - intros k G. rewrite btd_go_get, G; auto.
Qed.

Lemma attr_defaults_get : forall k dflt d x, dget x (attr_defaults k dflt d) =
  if String.eqb x k then match dget k d with Some v => bool_to_defaults (Some dflt) v | None => None end else dget x d.
Proof.
  intros k dflt d x. unfold attr_defaults. destruct (String.eqb_spec x k) as [->|Q].
  - destruct (dget k d) as [v|] eqn:E; [|auto]. unfold set_opt. destruct (bool_to_defaults (Some dflt) v).
    + apply dget_dset_same. + apply dget_dpop_same.
  - destruct (dget k d) as [v|]; [|auto]. unfold set_opt. destruct (bool_to_defaults (Some dflt) v).
    + apply dget_dset_other. auto. + apply dget_dpop_other. auto.
Qed.

Definition default_of (k : string) : option val :=
  if string_dec k "ldp" then Some (VDict [])
  else if string_dec k "bgp" then Some (VDict [("ipv4", VList [VStr "ibgp"; VStr "ebgp"]); ("ipv6", VList [VStr "ibgp"; VStr "ebgp"])])
  else if string_dec k "vpn" then Some (VDict [("ipv4", VList [VStr "ibgp"]); ("ipv6", VList [VStr "ibgp"])])
  else if string_dec k "6pe" then Some (VList [VStr "ibgp"])
  else None.

(* Settings of a node before the transformation: boolean values are replaced with the defaults, other
   settings do not change, and an error is reported when the required routing protocol is missing. *)
Theorem mpls_settings_exact : forall mods d, (forall k x, dget k d = Some (VDict x) -> NoDup (dkeys x)) ->
  exists d' e, node_pre_transform mods (Some d) = (Some d', e) /\
  (forall k, match dget k d with
             | None => dget k d' = None
             | Some v => match default_of k with
                         | None => dget k d' = Some v
                         | Some dflt => expands dflt v (dget k d')
                         end
             end) /\
  (In ENoIgp e <-> dget "ldp" d' <> None /\ ~ In "ospf" mods /\ ~ In "isis" mods /\ ~ In "eigrp" mods) /\
  (In ENoBgp e <-> (dget "bgp" d' <> None \/ dget "vpn" d' <> None) /\ ~ In "bgp" mods) /\
  (forall x, In x e -> x = ENoIgp \/ x = ENoBgp).
Proof.
  intros mods d W. unfold node_pre_transform. eexists. eexists. split; [reflexivity|].
  set (d1 := attr_defaults "ldp" (VDict []) d). set (d2 := attr_defaults "6pe" _ _).
  assert (G : forall k, dget k d2 = match dget k d with
             | None => None
             | Some v => match default_of k with None => Some v | Some dflt => bool_to_defaults (Some dflt) v end end).
  { intros k. unfold d2, d1. rewrite !attr_defaults_get. unfold default_of.
    destruct (string_dec k "ldp") as [->|N1]; [cbn; destruct (dget "ldp" d); auto|].
    destruct (string_dec k "bgp") as [->|N2]; [cbn; destruct (dget "bgp" d); auto|].
    destruct (string_dec k "vpn") as [->|N3]; [cbn; destruct (dget "vpn" d); auto|].
    destruct (string_dec k "6pe") as [->|N4]; [cbn; destruct (dget "6pe" d); auto|].
    apply String.eqb_neq in N1, N2, N3, N4. rewrite N1, N2, N3, N4. destruct (dget k d); auto. }
  assert (L : dget "ldp" d1 = dget "ldp" d2) by (unfold d2; rewrite !attr_defaults_get; reflexivity).
  split; [|split; [|split]].
  - intros k. rewrite G. destruct (dget k d) as [v|] eqn:E; [|auto]. destruct (default_of k) as [dflt|]; [|auto].
    apply btd_expands. intros x ->. eapply W; eauto.
  - rewrite in_app_iff. unfold dmem. rewrite L. split.
    + intros [I|I].
      * destruct (dget "ldp" d2) as [v|]; [|destruct I]. destruct (existsb _ mods) eqn:X; [destruct I|]. split; [discriminate|].
        assert (Q : forall p, In p ["ospf"; "isis"; "eigrp"] -> ~ In p mods).
        { intros p P J. assert (T : existsb (fun x => memS x ["ospf"; "isis"; "eigrp"]) mods = true).
          { apply existsb_exists. exists p. split; [auto|]. apply memS_true. auto. } congruence. }
        repeat split; apply Q; cbn; auto.
      * destruct ((_ || _) && _); [destruct I as [I|[]]; discriminate I|destruct I].
    + intros [A [B1 [B2 B3]]]. left. destruct (dget "ldp" d2) as [v|]; [|congruence].
      destruct (existsb _ mods) eqn:X; [|left; auto]. exfalso. apply existsb_exists in X. destruct X as [p [P1 P2]].
      apply memS_true in P2. destruct P2 as [<-|[<-|[<-|[]]]]; auto.
  - rewrite in_app_iff. unfold dmem. split.
    + intros [I|I].
      * destruct (_ && _); [destruct I as [I|[]]; discriminate I|destruct I].
      * destruct (memS "bgp" mods) eqn:X; [rewrite andb_false_r in I; destruct I|].
        split; [|apply memS_false; auto]. destruct (dget "bgp" d2); [left; discriminate|]. destruct (dget "vpn" d2); [right; discriminate|destruct I].
    + intros [A B]. right. apply memS_false in B. rewrite B.
      destruct (dget "bgp" d2), (dget "vpn" d2); cbn; auto. destruct A; congruence.
  - intros x I. apply in_app_iff in I. destruct I as [I|I].
    + destruct (_ && _); [destruct I as [<-|[]]; auto|destruct I].
    + destruct (_ && _); [destruct I as [<-|[]]; auto|destruct I].
Qed.

Example mpls_settings_example :
  node_pre_transform ["ospf"; "bgp"] (Some [("ldp", VBool true); ("bgp", VDict [("ipv4", VBool true); ("ipv6", VBool false)]); ("6pe", VBool true)]) =
  (Some [("ldp", VDict []); ("bgp", VDict [("ipv4", VList [VStr "ibgp"; VStr "ebgp"])]); ("6pe", VList [VStr "ibgp"])], []).
Proof. reflexivity. Qed.

(* ---------- C126: LDP interfaces ---------- *)

Definition same_intf (i i' : mintf) : Prop :=
  mi_name i' = mi_name i /\ mi_v4 i' = mi_v4 i /\ mi_vrf i' = mi_vrf i /\ mi_role i' = mi_role i /\ mi_type i' = mi_type i /\
  mi_ngbs i' = mi_ngbs i.

(* the interfaces running LDP and the passive flag *)
Definition ldp_on (running : string -> bool) (i i' : mintf) : Prop :=
  same_intf i i' /\
  (mi_ldp i' <> None <-> mi_v4 i = true /\ mi_vrf i = false /\ mi_role i <> "external") /\
  (forall p, mi_ldp i' = Some p ->
     (p = true <-> mi_role i = "passive" \/ mi_type i = "stub" \/
        (mi_role i = "stub" /\ forall n, In n (mi_ngbs i) -> running n = false))).

(* an interface on which the processing ends with an exception *)
Definition ldp_crash (csc : bool) (i : mintf) : Prop :=
  mi_v4 i = true /\ mi_flag i = Some true /\ mi_role i <> "external" /\ (mi_vrf i = true -> csc = true).

(* LDP requested in a VRF on a device that does not support it *)
Definition csc_bad (csc : bool) (i : mintf) : bool :=
  mi_v4 i && mi_vrf i && match mi_flag i with Some true => true | _ => false end && negb csc.

Lemma passive_spec : forall running i, mi_ldp i = None -> mi_role i <> "external" ->
  (ldp_passive running i = true <-> mi_role i = "passive" \/ mi_type i = "stub" \/
     (mi_role i = "stub" /\ forall n, In n (mi_ngbs i) -> running n = false)).
Proof.
  intros running i N X. unfold ldp_passive. rewrite N.
  destruct (String.eqb_spec (mi_role i) "passive") as [E1|E1]; [cbn; tauto|].
  destruct (String.eqb_spec (mi_role i) "external") as [E2|E2]; [contradiction|].
  destruct (String.eqb_spec (mi_type i) "stub") as [E3|E3]; [cbn; tauto|].
  destruct (String.eqb_spec (mi_role i) "stub") as [E4|E4]; cbn.
  - rewrite forallb_forall. split.
    + intros H. right. right. split; [auto|]. intros n I. specialize (H n I). destruct (running n); auto; discriminate.
    + intros [H|[H|[_ H]]]; [congruence|contradiction|]. intros n I. rewrite (H n I). auto.
  - split; [discriminate|]. intros [H|[H|[H _]]]; contradiction.
Qed.

Lemma ldp_intf_spec : forall csc running i, mi_ldp i = None ->
  (fst (ldp_intf csc running i) = None <-> ldp_crash csc i) /\
  (forall i' e, ldp_intf csc running i = (Some i', e) -> ldp_on running i i' /\ e = if csc_bad csc i then [ECsc (mi_name i)] else []).
Proof.
  intros csc running i N. unfold ldp_intf, ldp_crash, csc_bad.
  assert (SI : same_intf i i) by (repeat split).
  assert (SL : forall f p, same_intf i (set_ldp i f p)) by (intros; repeat split).
  destruct (mi_v4 i) eqn:V4; cbn [negb andb].
  2: { cbn [fst]. split; [split; [discriminate|intros [A _]; discriminate A]|]. intros i' e H. injection H as <- <-.
       split; [|auto]. split; [auto|]. rewrite N. split; [split; [congruence|intros [A _]; congruence]|intros p Q; discriminate Q]. }
  destruct (mi_vrf i) eqn:VR; cbn [negb andb].
  - assert (NO : forall i', same_intf i i' -> mi_ldp i' = None -> ldp_on running i i').
    { intros i' S L. split; [auto|]. rewrite L. split; [split; [congruence|intros [_ [A _]]; congruence]|intros p Q; discriminate Q]. }
    destruct (mi_flag i) as [[|]|] eqn:F; cbn [fst].
    + destruct csc; cbn [negb andb fst].
      * destruct (String.eqb_spec (mi_role i) "external") as [E|E]; cbn [fst].
        -- split; [split; [discriminate|intros [_ [_ [A _]]]; contradiction]|]. intros i' e H. injection H as <- <-.
           split; [apply NO; auto|auto].
        -- split; [split; auto|]. intros i' e H. discriminate H.
      * split; [split; [discriminate|intros [_ [_ [_ A]]]; discriminate (A eq_refl)]|].
        intros i' e H. injection H as <- <-. split; [apply NO; auto|auto].
    + split; [split; [discriminate|intros [_ [A _]]; discriminate A]|]. intros i' e H. injection H as <- <-. split; [apply NO; auto|auto].
    + split; [split; [discriminate|intros [_ [A _]]; discriminate A]|]. intros i' e H. injection H as <- <-. split; [apply NO; auto|auto].
  - assert (EX : forall f, mi_role i = "external" -> ldp_on running i (set_ldp i f None)).
    { intros f E. split; [auto|]. cbn. split; [split; [congruence|intros [_ [_ A]]; contradiction]|intros p Q; discriminate Q]. }
    assert (GO : forall f, mi_role i <> "external" -> ldp_on running i (set_ldp i f (Some (ldp_passive running i)))).
    { intros f E. split; [auto|]. cbn. split; [split; [auto|discriminate]|]. intros p Q. injection Q as <-. apply passive_spec; auto. }
    destruct (mi_flag i) as [[|]|] eqn:F; destruct (String.eqb_spec (mi_role i) "external") as [E|E]; cbn [fst].
    + split; [split; [discriminate|intros [_ [_ [A _]]]; contradiction]|]. intros i' e H. injection H as <- <-. auto.
    + split; [split; [intros _; repeat split; auto; discriminate|auto]|]. intros i' e H. discriminate H.
    + split; [split; [discriminate|intros [_ [A _]]; discriminate A]|]. intros i' e H. injection H as <- <-. auto.
    + split; [split; [discriminate|intros [_ [A _]]; discriminate A]|]. intros i' e H. injection H as <- <-. auto.
    + split; [split; [discriminate|intros [_ [A _]]; discriminate A]|]. intros i' e H. injection H as <- <-. auto.
    + split; [split; [discriminate|intros [_ [A _]]; discriminate A]|]. intros i' e H. injection H as <- <-. auto.
Qed.

Lemma ldp_intfs_spec : forall csc running l, Forall (fun i => mi_ldp i = None) l ->
  (fst (ldp_intfs csc running l) = None <-> exists i, In i l /\ ldp_crash csc i) /\
  (forall l' e, ldp_intfs csc running l = (Some l', e) ->
     Forall2 (ldp_on running) l l' /\ e = map (fun i => ECsc (mi_name i)) (filter (csc_bad csc) l)).
Proof.
  intros csc running l F. induction F as [|i l N F [IH1 IH2]]; cbn [ldp_intfs].
  - split; [split; [discriminate|intros [i [[] _]]]|]. intros l' e H. injection H as <- <-. split; constructor.
  - destruct (ldp_intf_spec csc running i N) as [S1 S2].
    destruct (ldp_intf csc running i) as [[i'|] e1] eqn:E.
    + destruct (ldp_intfs csc running l) as [[r'|] e2] eqn:R; cbn [fst] in *.
      * split; [split; [discriminate|]|].
        -- intros [j [[<-|J] C]]; [apply S1 in C; discriminate C|]. assert (X : Some r' = None) by (apply IH1; eauto). discriminate X.
        -- intros l' e H. injection H as <- <-. destruct (S2 _ _ eq_refl) as [A1 A2]. destruct (IH2 _ _ eq_refl) as [B1 B2].
           split; [constructor; auto|]. rewrite A2, B2. cbn [filter]. destruct (csc_bad csc i); auto.
      * split; [split; [|auto]|intros l' e H; discriminate H]. intros _. destruct (proj1 IH1 eq_refl) as [j [J C]].
        exists j. split; [right; auto|auto].
    + cbn [fst] in *. split; [split; [|auto]|intros l' e H; discriminate H]. intros _. exists i. split; [left; auto|apply S1; auto].
Qed.

(* LDP on a node with IPv4 and without interface LDP data: LDP runs exactly on the IPv4 interfaces outside of
   VRFs that do not have the external role - whatever the mpls.ldp flag of the interface is - and the node has
   LDP data exactly when there is such an interface. *)
Theorem ldp_exact : forall csc running n n' e, In "ipv4" (mn_af n) -> Forall (fun i => mi_ldp i = None) (mn_intfs n) ->
  node_adjust_ldp csc running n = (Some n', e) ->
  Forall2 (ldp_on running) (mn_intfs n) (mn_intfs n') /\
  (mn_ldp n' = true <-> exists i, In i (mn_intfs n) /\ mi_v4 i = true /\ mi_vrf i = false /\ mi_role i <> "external") /\
  e = map (fun i => ECsc (mi_name i)) (filter (csc_bad csc) (mn_intfs n)) /\
  dget "ldp" (mn_mpls n') = None /\ (forall k, k <> "ldp" -> dget k (mn_mpls n') = dget k (mn_mpls n)) /\
  mn_ngbs n' = mn_ngbs n.
Proof.
  intros csc running n n' e A F H. unfold node_adjust_ldp in H. apply memS_true in A. rewrite A in H. cbn [negb] in H.
  destruct (ldp_intfs_spec csc running _ F) as [_ S].
  destruct (ldp_intfs csc running (mn_intfs n)) as [[l|] e1] eqn:E; [|discriminate]. injection H as <- <-.
  destruct (S _ _ eq_refl) as [S1 S2]. cbn [set_mpls set_intfs mn_intfs mn_ldp mn_mpls mn_ngbs].
  split; [auto|]. split.
  - clear - S1. split.
    + intros X. apply existsb_exists in X. destruct X as [i' [I L]]. induction S1 as [|i j l l' [_ [P _]] F IH]; [destruct I|].
      destruct I as [<-|I].
      * exists i. split; [left; auto|]. apply P. unfold has_ldp in L. destruct (mi_ldp j); [discriminate|discriminate L].
      * destruct (IH I) as [k [K1 K2]]. exists k. split; [right; auto|auto].
    + intros [i [I P]]. apply existsb_exists. induction S1 as [|k j l l' [_ [Q _]] F IH]; [destruct I|].
      destruct I as [->|I].
      * exists j. split; [left; auto|]. unfold has_ldp. apply Q in P. destruct (mi_ldp j); [auto|congruence].
      * destruct (IH I) as [x [X1 X2]]. exists x. split; [right; auto|auto].
  - split; [auto|]. split; [apply dget_dpop_same|]. split; [intros k K; apply dget_dpop_other; auto|auto].
Qed.

(* The processing ends with an exception exactly when mpls.ldp is True on a suitable interface. *)
Theorem ldp_flag_exception : forall csc running n, Forall (fun i => mi_ldp i = None) (mn_intfs n) ->
  (fst (node_adjust_ldp csc running n) = None <-> In "ipv4" (mn_af n) /\ exists i, In i (mn_intfs n) /\ ldp_crash csc i).
Proof.
  intros csc running n F. unfold node_adjust_ldp. destruct (memS "ipv4" (mn_af n)) eqn:A; cbn [negb].
  - apply memS_true in A. destruct (ldp_intfs_spec csc running _ F) as [S _].
    destruct (ldp_intfs csc running (mn_intfs n)) as [[l|] e1]; cbn [fst] in *.
    + split; [discriminate|]. intros [_ C]. apply S in C. discriminate C.
    + split; [intros _; split; [auto|apply S; auto]|auto].
  - cbn. split; [discriminate|]. intros [I _]. apply memS_false in A. contradiction.
Qed.

(* without IPv4 on the node nothing is changed *)
Theorem ldp_no_ipv4 : forall csc running n, ~ In "ipv4" (mn_af n) -> node_adjust_ldp csc running n = (Some n, [ELdpNoIpv4]).
Proof.
  intros csc running n H. unfold node_adjust_ldp. apply memS_false in H. rewrite H. auto.
Qed.

Definition eth (nm role : string) (vrf : bool) (f : option bool) : mintf := mk_mi nm true vrf role "p2p" ["r2"] f None.
Definition ldp_node (l : list mintf) : mnode := mk_mn ["ipv4"] [("ldp", VDict [])] true false [] [] l false.

(* mpls.ldp set to False does not disable LDP; mpls.ldp set to True is an exception, also in a VRF *)
Theorem ldp_flag_refuted :
  (exists n', node_adjust_ldp false (fun _ => false) (ldp_node [eth "e1" "" false (Some false)]) = (Some n', []) /\
     map mi_ldp (mn_intfs n') = [Some false] /\ mn_ldp n' = true) /\
  node_adjust_ldp false (fun _ => false) (ldp_node [eth "e1" "" false (Some true)]) = (None, []) /\
  node_adjust_ldp true (fun _ => false) (ldp_node [eth "e1" "" true (Some true)]) = (None, []).
Proof. split; [eexists; repeat split; reflexivity|split; reflexivity]. Qed.

Example ldp_example : exists n',
  node_adjust_ldp false (fun _ => false) (ldp_node [eth "e1" "" false None; eth "e2" "external" false None; eth "e3" "" true (Some true); eth "e4" "stub" false None]) =
    (Some n', [ECsc "e3"]) /\ map mi_ldp (mn_intfs n') = [Some false; None; None; Some true].
Proof. eexists. split; reflexivity. Qed.

Print Assumptions mpls_settings_exact.
Print Assumptions ldp_exact.
Print Assumptions ldp_flag_exception.
Print Assumptions ldp_no_ipv4.
Print Assumptions ldp_flag_refuted.
