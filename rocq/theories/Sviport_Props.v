(* Bridge groups, the ports left behind by VLAN interfaces, aborted transformations, and devices without VLAN interfaces
   (properties C109-C111). *)
From Coq Require Import String ZArith Lia Bool List.
From Verif Require Import Base Box_Model Box_Props Svi_Model Svi_Props.
Import ListNotations.
Open Scope Z_scope.

Section Port.
Variable svi_fmt : Z -> option Z -> string -> string.
Variable svi_desc : string -> Z -> string.
Variable t : vtop.
Variable nd : vnode.
Notation create_svi := (create_svi svi_fmt svi_desc t nd).
Notation create_node_vlan := (create_node_vlan t nd).
Notation make_svi := (make_svi svi_fmt svi_desc t nd).
Notation update_list := (update_list t nd).
Notation cstep := (cstep svi_fmt svi_desc t nd).
Notation csteps := (csteps svi_fmt svi_desc t nd).

(* ---- VLAN data of the node and bridge groups ---- *)

(* the data of a VLAN, without bridge group, before its use on a port *)
Definition global_mode (g : nvlan) : string :=
  match vn_mode nd with
  | Some m => if String.eqb m "" then match nv_mode g with
                | Some m => if String.eqb m "" then match vt_mode t with Some m => if String.eqb m "" then "irb" else m | None => "irb" end else m
                | None => match vt_mode t with Some m => if String.eqb m "" then "irb" else m | None => "irb" end end else m
  | None => match nv_mode g with
            | Some m => if String.eqb m "" then match vt_mode t with Some m => if String.eqb m "" then "irb" else m | None => "irb" end else m
            | None => match vt_mode t with Some m => if String.eqb m "" then "irb" else m | None => "irb" end end
  end%string.
(* the same VLAN apart from the bridge group *)
Definition same_vlan (x y : nvlan) : Prop :=
  nv_id x = nv_id y /\ nv_mode x = nv_mode y /\ nv_type x = nv_type y /\ nv_attr x = nv_attr y.
(* VLAN data copied from the global VLAN: the mode is the mode of the node, of the VLAN, of the topology or irb; the
   parameters of modules the node does not use are left out *)
Definition global_copy (g x : nvlan) : Prop :=
  nv_id x = nv_id g /\ nv_type x = nv_type g /\ nv_mode x = Some (global_mode g) /\
  nv_attr x = filter (fun kv => negb (negb (memS (fst kv) (vn_mods nd)) && memS (fst kv) (vt_mods t))) (nv_attr g).
Definition origin (vlans : dict nvlan) (v : string) (x : nvlan) : Prop :=
  match dget v vlans with
  | Some y => same_vlan x y
  | None => exists g, dget v (vt_vlans t) = Some g /\ global_copy g x
  end.

Lemma populated_copy : forall g, global_copy g (populated t nd g).
Proof.
  intros g. unfold global_copy, populated. cbn [nv_id nv_type nv_mode nv_attr]. repeat split.
  - f_equal. unfold global_mode, or_text, text.
    destruct (vn_mode nd) as [a|]; [destruct (String.eqb a "")|]; try reflexivity;
    destruct (nv_mode g) as [b|]; try (destruct (String.eqb b "")); try reflexivity;
    destruct (vt_mode t) as [d|]; try (destruct (String.eqb d "")); reflexivity.
  - apply filter_ext. intros [k v]. cbn [fst]. destruct (memS k (vn_mods nd)), (memS k (vt_mods t)); reflexivity.
Qed.

(* the state after the use of the VLANs [names], in the order of their first use *)
Definition groups (vlans : dict nvlan) (names : list string) (st : cstate) : Prop :=
  NoDup names /\ c_bg st = match names with [] => None | _ => Some (Z.of_nat (length names)) end /\
  (forall k v, nth_error names k = Some v -> exists x, dget v (c_vlans st) = Some x /\ nv_bg x = Some (Z.of_nat k + 1) /\ origin vlans v x) /\
  (forall v, ~ In v names -> dget v (c_vlans st) = dget v vlans).

Definition no_groups (d : dict nvlan) : Prop := forall v x, dget v d = Some x -> nv_bg x = None.

Lemma groups_step : forall vlans i r st st' names, no_groups vlans -> no_groups (vt_vlans t) ->
  cstep i r st st' -> groups vlans names st ->
  exists more, groups vlans (names ++ more) st' /\ forall v, In v (names ++ more) <-> In v names \/ uses i v.
Proof.
  intros vlans i r st st' names Nv Nt A G.
  assert (K : forall v x vl bg, uses i v -> create_node_vlan (c_vlans st) (c_bg st) v = Some (x, vl, bg) ->
    c_vlans st' = vl -> c_bg st' = bg ->
    exists more, groups vlans (names ++ more) st' /\ forall w, In w (names ++ more) <-> In w names \/ uses i w).
  { intros v x vl bg U C E1 E2. apply create_node_vlan_inv in C. destruct C as [E3 [Bx [x0 [O D]]]]. destruct G as [G1 [G2 [G3 G4]]].
    destruct (in_dec string_dec v names) as [I|I].
    - exists []. rewrite app_nil_r. split.
      2:{ intros w. split; [auto|]. intros [W|W]; [auto|]. now rewrite (uses_fun _ _ _ W U). }
      apply In_nth_error in I. destruct I as [k I]. destruct (G3 k v I) as [y [Y1 [Y2 Y3]]].
      destruct O as [O|[O _]]; [|congruence]. rewrite Y1 in O. injection O as <-.
      destruct D as [[_ [-> Eb]]|[D _]]; [|congruence].
      assert (S : forall w, dget w (c_vlans st') = dget w (c_vlans st)).
      { intros w. rewrite E1, E3. destruct (String.eqb_spec w v) as [->|N]; [now rewrite dget_dset_same|now apply dget_dset_other]. }
      split; [auto|]. split; [congruence|]. split.
      + intros k' w W. rewrite S. now apply G3.
      + intros w W. rewrite S. now apply G4.
    - exists [v]. split.
      2:{ intros w. rewrite in_app_iff. cbn [In]. split; intros [W|W]; auto; [|right; left; now apply (uses_fun i)].
          destruct W as [<-|[]]. auto. }
      assert (B0 : nv_bg x0 = None).
      { destruct O as [O|[O [g [Og ->]]]]; [rewrite G4 in O by auto; eauto|]. cbn [populated nv_bg]. eauto. }
      destruct D as [[D _]|[_ [b [Eb [Ex Ebg]]]]]; [congruence|].
      assert (Eb' : b = Z.of_nat (length names) + 1).
      { rewrite Eb, G2. destruct names as [|n0 ns]; [reflexivity|]. cbn [length].
        destruct (Z.eqb_spec (Z.of_nat (S (length ns))) 0); lia. }
      split; [|split; [|split]].
      + apply NoDup_app_intro; [auto|constructor; [intros []|constructor]|]. intros w W [<-|[]]. auto.
      + rewrite E2, Ebg, Eb'. rewrite app_length. cbn [length]. destruct names; cbn [app length]; f_equal; lia.
      + intros k w W. destruct (Nat.lt_ge_cases k (length names)) as [L|L].
        * rewrite nth_error_app1 in W by auto. destruct (G3 k w W) as [y [Y1 Y2]]. exists y. split; [|auto].
          rewrite E1, E3. rewrite dget_dset_other; [auto|]. intros ->. apply I. eapply nth_error_In; eauto.
        * rewrite nth_error_app2 in W by auto. destruct (k - length names)%nat as [|q] eqn:Q; [|destruct q; discriminate].
          cbn [nth_error] in W. injection W as <-. exists x. rewrite E1, E3. split; [apply dget_dset_same|].
          rewrite Ex. cbn [nv_bg]. split; [f_equal; lia|].
          unfold origin. destruct O as [O|[O [g [Og Eg]]]].
          -- rewrite G4 in O by auto. rewrite O. unfold same_vlan. cbn [nv_id nv_mode nv_type nv_attr]. auto.
          -- rewrite G4 in O by auto. rewrite O. exists g. split; [auto|]. subst x0. apply populated_copy.
      + intros w W. rewrite E1, E3. rewrite dget_dset_other; [apply G4; intros X; apply W, in_app_iff; auto|].
        intros ->. apply W, in_app_iff. right. now left. }
  inversion A; subst; cbn [c_vlans c_bg] in *.
  - exists []. rewrite app_nil_r. split; [exact G|]. intros w. split; [auto|]. intros [W|W]; [auto|]. apply port_vlan_uses in W. congruence.
  - destruct H as [U _]. eapply (K _ _ _ _ U H0); reflexivity.
  - destruct H as [U _]. eapply (K _ _ _ _ U H0); reflexivity.
  - destruct H as [U _]. eapply (K _ _ _ _ U H0); reflexivity.
Qed.

Lemma groups_steps : forall vlans l st st', no_groups vlans -> no_groups (vt_vlans t) -> csteps l st st' -> forall names,
  groups vlans names st ->
  exists more, groups vlans (names ++ more) st' /\ forall v, In v (names ++ more) <-> In v names \/ exists i, In i l /\ uses i v.
Proof.
  intros vlans l st st' Nv Nt S. induction S as [|i r st st1 st2 A S IH]; intros names G.
  { exists []. rewrite app_nil_r. split; [auto|]. intros v. split; [auto|]. intros [X|[i [[] _]]]; auto. }
  destruct (groups_step _ _ _ _ _ _ Nv Nt A G) as [m1 [G1 M1]]. destruct (IH _ G1) as [m2 [G2 M2]].
  exists (m1 ++ m2). rewrite app_assoc. split; [auto|]. intros v. rewrite M2, M1. split.
  - intros [[X|X]|[j [J X]]]; [auto| |].
    + right. exists i. split; [now left|auto].
    + right. exists j. split; [now right|auto].
  - intros [X|[j [[<-|J] X]]]; [auto|auto|]. right. eauto.
Qed.

(* C109: the VLANs used on ports get bridge groups 1, 2, ... in the order of their first use, and nothing else changes *)
Theorem bridge_groups_exact : forall l vlans nl c, vn_svi nd = true -> no_groups vlans -> no_groups (vt_vlans t) ->
  create_svi l (start vlans None nl) = Some c ->
  exists names, NoDup names /\ (forall v, In v names <-> exists i, In i l /\ uses i v) /\
    (forall k v, nth_error names k = Some v ->
       exists x, dget v (c_vlans c) = Some x /\ nv_bg x = Some (Z.of_nat k + 1) /\ origin vlans v x) /\
    (forall v, ~ In v names -> dget v (c_vlans c) = dget v vlans).
Proof.
  intros l vlans nl c N Nv Nt H. apply create_svi_steps in H; [|auto].
  destruct (groups_steps vlans _ _ _ Nv Nt H []) as [names [[G1 [G2 [G3 G4]]] M]].
  { split; [constructor|]. split; [reflexivity|]. split; [intros k v X; destruct k; discriminate|reflexivity]. }
  exists names. split; [auto|]. split; [|auto]. intros v. rewrite (M v). split; [intros [[]|X]; auto|auto].
Qed.

Theorem bridge_groups_distinct : forall l vlans nl c v w x y b, vn_svi nd = true -> no_groups vlans -> no_groups (vt_vlans t) ->
  create_svi l (start vlans None nl) = Some c ->
  dget v (c_vlans c) = Some x -> dget w (c_vlans c) = Some y -> nv_bg x = Some b -> nv_bg y = Some b -> v = w.
Proof.
  intros l vlans nl c v w x y b N Nv Nt H X Y B1 B2.
  destruct (bridge_groups_exact _ _ _ _ N Nv Nt H) as [names [ND [_ [G U]]]].
  assert (K : forall u z, dget u (c_vlans c) = Some z -> nv_bg z = Some b -> exists k, nth_error names k = Some u /\ b = Z.of_nat k + 1).
  { intros u z Z1 Z2. destruct (in_dec string_dec u names) as [I|I].
    - apply In_nth_error in I. destruct I as [k I]. exists k. split; [auto|]. destruct (G k u I) as [z' [Z3 [Z4 _]]]. congruence.
    - rewrite (U u I) in Z1. rewrite (Nv u z Z1) in Z2. discriminate. }
  destruct (K v x X B1) as [k1 [K1 E1]]. destruct (K w y Y B2) as [k2 [K2 E2]].
  assert (k1 = k2) by lia. subst k2. congruence.
Qed.

(* ---- ports ---- *)

(* what stays the same on every port *)
Definition same_port (i j : vintf) : Prop :=
  i_index j = i_index i /\ i_type j = i_type i /\ i_ifname j = i_ifname i /\ i_link j = i_link i /\ i_parent j = i_parent i /\
  i_loop j = i_loop i /\ p_trunk (i_vlan j) = p_trunk (i_vlan i) /\ p_trunk_id (i_vlan j) = p_trunk_id (i_vlan i).

(* a bridged port keeps its physical attributes and its VLANs and gets the VLAN id; its neighbors are set aside *)
Definition bridged_after (x : nvlan) (i j : vintf) : Prop :=
  same_port i j /\ p_access (i_vlan j) = p_access (i_vlan i) /\ p_native (i_vlan j) = p_native (i_vlan i) /\
  p_access_id (i_vlan j) = Some (nv_id x) /\ i_ngb j = [] /\ i_saved j = Some (i_ngb i) /\ i_vname j = None /\ i_fwd j = None /\
  forall k, dget k (i_attr j) = if in_dec string_dec k (vt_phy t) then dget k (i_attr i) else None.

(* a routed port loses its VLAN, keeps everything else, and gets the attributes of the VLAN it does not have *)
Definition routed_after (v : string) (x : nvlan) (i j : vintf) : Prop :=
  same_port i j /\ p_access (i_vlan j) = None /\ p_native (i_vlan j) = None /\
  i_ngb j = i_ngb i /\ i_vname j = i_vname i /\ i_fwd j = i_fwd i /\ i_saved j = i_saved i /\
  (i_type i = "vlan_member"%string ->
     p_mode (i_vlan j) = Some "route"%string /\ p_access_id (i_vlan j) = Some (nv_id x) /\ p_name (i_vlan j) = Some v /\ i_native j = i_native i) /\
  (i_type i <> "vlan_member"%string ->
     p_mode (i_vlan j) = p_mode (i_vlan i) /\ p_access_id (i_vlan j) = p_access_id (i_vlan i) /\ p_name (i_vlan j) = p_name (i_vlan i) /\
     (forall n, p_native (i_vlan i) = Some n -> n <> ""%string -> i_native j = Some n) /\
     (p_native (i_vlan i) = None -> i_native j = i_native i)) /\
  (forall k y, dget k (i_attr i) = Some y -> is_dict y = false -> dget k (i_attr j) = Some y) /\
  (forall k, dget k (i_attr i) = None -> dget k (i_attr j) = from_vlan t x k) /\
  (forall k d, dget k (i_attr i) = Some (VDict d) ->
     dget k (i_attr j) = Some (match from_vlan t x k with Some (VDict e) => merge (VDict e) (VDict d) | _ => VDict d end)).

Definition port_after (vlans : dict nvlan) (i j : vintf) : Prop :=
  (j = i /\ forall v, ~ uses i v) \/
  (exists v x, bridged_on i v /\ dget v vlans = Some x /\ bridged_after x i j) \/
  (exists v x, routed_on i v /\ dget v vlans = Some x /\ routed_after v x i j).

Lemma bridged_port_after : forall x i, bridged_after x i (bridged_port t x i).
Proof.
  intros x i. split; [repeat split; reflexivity|]. do 7 (split; [reflexivity|]).
  intros k. cbn [bridged_port i_attr]. rewrite (dget_filter_key _ (fun z => memS z (vt_phy t))).
  destruct (in_dec string_dec k (vt_phy t)) as [I|I].
  - apply memS_true in I. now rewrite I.
  - apply memS_false in I. now rewrite I.
Qed.
Lemma routed_attrs : forall x i k, NoDup (dkeys (i_attr i)) ->
  dget k (i_attr (routed_port t ""%string x i)) = mopt (from_vlan t x k) (dget k (i_attr i)).
Proof.
  intros x i k N. cbn [routed_port i_attr]. rewrite mdict_keys, dget_mdict by auto.
  rewrite (dget_filter_key _ (fun z => negb (memS z (vt_svi_skip t)))). unfold from_vlan. now destruct (memS k (vt_svi_skip t)).
Qed.
Lemma routed_port_after : forall v x i, NoDup (dkeys (i_attr i)) -> routed_after v x i (routed_port t v x i).
Proof.
  intros v x i N. unfold routed_after.
  assert (AT : forall k, dget k (i_attr (routed_port t v x i)) = mopt (from_vlan t x k) (dget k (i_attr i))) by (intros k; exact (routed_attrs x i k N)).
  split; [unfold same_port, routed_port; cbn [i_index i_type i_ifname i_link i_parent i_loop i_vlan]; destruct (String.eqb (i_type i) "vlan_member"); repeat split; reflexivity|].
  split; [unfold routed_port; cbn [i_vlan]; destruct (String.eqb (i_type i) "vlan_member"); reflexivity|].
  split; [unfold routed_port; cbn [i_vlan]; destruct (String.eqb (i_type i) "vlan_member"); reflexivity|].
  do 4 (split; [reflexivity|]).
  split.
  { intros E. unfold routed_port. rewrite E. cbn [String.eqb Ascii.eqb Bool.eqb i_vlan i_native p_mode p_access_id p_name]. repeat split; reflexivity. }
  split.
  { intros E. unfold routed_port. apply String.eqb_neq in E. rewrite E. cbn [i_vlan i_native p_mode p_access_id p_name].
    split; [reflexivity|]. split; [reflexivity|]. split; [reflexivity|]. split.
    - intros n Hn D. rewrite Hn. apply String.eqb_neq in D. now rewrite D.
    - intros ->. reflexivity. }
  split; [|split].
  - intros k y G D. rewrite AT, G. destruct (from_vlan t x k) as [z|]; cbn [mopt]; [|auto]. now rewrite merge_scalar_r.
  - intros k G. rewrite AT, G. destruct (from_vlan t x k); reflexivity.
  - intros k d G. rewrite AT, G. destruct (from_vlan t x k) as [z|]; cbn [mopt]; [|auto].
    destruct z as [| | | | |e]; try reflexivity.
Qed.

Lemma ports_steps : forall l st st', csteps l st st' -> Forall (fun i => NoDup (dkeys (i_attr i))) l ->
  exists ports, c_done st' = c_done st ++ ports /\ Forall2 (port_after (c_vlans st')) l ports.
Proof.
  intros l st st' S. induction S as [|i r st st1 st2 A S IH]; intros N.
  { exists []. rewrite app_nil_r. split; [auto|constructor]. }
  inversion N; subst. destruct (IH H2) as [ports [E F]].
  assert (K : exists j, c_done st1 = c_done st ++ [j] /\ port_after (c_vlans st2) i j).
  { inversion A; subst; cbn [c_done].
    - eexists. split; [reflexivity|]. left. split; [auto|]. intros v U. apply port_vlan_uses in U. congruence.
    - eexists. split; [reflexivity|]. right. right. exists v, x. split; [auto|]. destruct (created _ _ _ _ _ _ _ _ H0) as [C1 C2].
      split; [eapply vlan_stable; [exact S|exact C1|exact C2]|now apply routed_port_after].
    - eexists. split; [reflexivity|]. right. left. exists v, x. split; [auto|]. destruct (created _ _ _ _ _ _ _ _ H0) as [C1 C2].
      split; [eapply vlan_stable; [exact S|exact C1|exact C2]|now apply bridged_port_after].
    - eexists. split; [reflexivity|]. right. left. exists v, x. split; [auto|]. destruct (created _ _ _ _ _ _ _ _ H0) as [C1 C2].
      split; [eapply vlan_stable; [exact S|exact C1|exact C2]|now apply bridged_port_after]. }
  destruct K as [j [J P]]. exists (j :: ports). split; [rewrite E, J, <- app_assoc; reflexivity|now constructor].
Qed.

(* C110: what becomes of the ports of a node *)
Theorem ports_exact : forall l vlans bg nl c, vn_svi nd = true -> Forall (fun i => NoDup (dkeys (i_attr i))) l ->
  create_svi l (start vlans bg nl) = Some c -> Forall2 (port_after (c_vlans c)) l (c_done c).
Proof.
  intros l vlans bg nl c N D H. apply create_svi_steps in H; [|auto]. destruct (ports_steps _ _ _ H D) as [ports [E F]].
  cbn [start c_done app] in E. now rewrite E.
Qed.

(* ---- aborted transformations, devices without VLAN interfaces ---- *)

(* a port that stops the transformation: no forwarding mode, or an unknown VLAN *)
Definition bad_port (vlans : dict nvlan) (i : vintf) : Prop :=
  exists v, uses i v /\ (i_fwd i = None \/ ~ In v (dkeys vlans) /\ ~ In v (dkeys (vt_vlans t))).

Lemma create_none : forall vlans bg v, create_node_vlan vlans bg v = None <-> ~ In v (dkeys vlans) /\ ~ In v (dkeys (vt_vlans t)).
Proof.
  intros vlans bg v. unfold Svi_Model.create_node_vlan. rewrite <- !dget_None. destruct (dget v vlans) as [x|].
  - destruct (nv_bg x); (split; [discriminate|intros [X _]; discriminate]).
  - destruct (dget v (vt_vlans t)) as [g|]; cbn [option_map]; [|split; auto].
    destruct (nv_bg (populated t nd g)); (split; [discriminate|intros [_ X]; discriminate]).
Qed.
Lemma known_step : forall vlans bg v x vlans' bg' w, create_node_vlan vlans bg v = Some (x, vlans', bg') ->
  (~ In w (dkeys vlans') /\ ~ In w (dkeys (vt_vlans t)) <-> ~ In w (dkeys vlans) /\ ~ In w (dkeys (vt_vlans t))).
Proof.
  intros vlans bg v x vlans' bg' w C. pose proof C as C0. apply create_node_vlan_inv in C. destruct C as [-> _].
  assert (K : ~ (~ In v (dkeys vlans) /\ ~ In v (dkeys (vt_vlans t)))).
  { intros X. apply (create_none vlans bg) in X. congruence. }
  rewrite <- !dget_None in *. destruct (String.eqb_spec w v) as [->|N].
  - rewrite dget_dset_same. split; [intros [X _]; discriminate|intros X; contradiction].
  - now rewrite dget_dset_other.
Qed.
Lemma bad_port_iff : forall d1 d2 i, (forall w, ~ In w (dkeys d1) /\ ~ In w (dkeys (vt_vlans t)) <-> ~ In w (dkeys d2) /\ ~ In w (dkeys (vt_vlans t))) ->
  (bad_port d1 i <-> bad_port d2 i).
Proof.
  intros d1 d2 i K. split; intros [v [U [F|B]]]; exists v; (split; [auto|]); [auto|right; now apply K|auto|right; now apply K].
Qed.

(* C111: the transformation is aborted exactly when a port has no forwarding mode or an unknown VLAN *)
Theorem svi_abort_exact : forall l vlans bg nl, vn_svi nd = true ->
  (create_svi l (start vlans bg nl) = None <-> exists i, In i l /\ bad_port vlans i).
Proof.
  intros l vlans bg nl N. assert (G : forall l st, create_svi l st = None <-> exists i, In i l /\ bad_port (c_vlans st) i).
  { clear l vlans bg nl. induction l as [|i r IH]; intros st; cbn [Svi_Model.create_svi].
    { split; [discriminate|intros [i [[] _]]]. }
    assert (K : forall vl bg dn sv nl es, (forall w, ~ In w (dkeys vl) /\ ~ In w (dkeys (vt_vlans t)) <-> ~ In w (dkeys (c_vlans st)) /\ ~ In w (dkeys (vt_vlans t))) ->
       ~ bad_port (c_vlans st) i -> (create_svi r (mk_cs vl bg dn sv nl es) = None <-> exists j, In j (i :: r) /\ bad_port (c_vlans st) j)).
    { intros vl bg dn sv nl es Q B. rewrite IH. cbn [c_vlans]. split.
      - intros [j [J X]]. exists j. split; [now right|]. now apply (bad_port_iff _ _ j Q).
      - intros [j [[<-|J] X]]; [contradiction|]. exists j. split; [auto|]. now apply (bad_port_iff _ _ j Q). }
    destruct (port_vlan i) as [v|] eqn:P.
    2:{ apply K; [tauto|]. intros [v [U _]]. apply port_vlan_uses in U. congruence. }
    apply port_vlan_uses in P. destruct (i_fwd i) as [m|] eqn:F.
    2:{ split; [|auto]. intros _. exists i. split; [now left|]. exists v. auto. }
    destruct (create_node_vlan (c_vlans st) (c_bg st) v) as [[[x vl] bg]|] eqn:C.
    2:{ split; [|auto]. intros _. exists i. split; [now left|]. exists v. split; [auto|]. right. now apply (create_none _ (c_bg st)). }
    assert (B : ~ bad_port (c_vlans st) i).
    { intros [w [U [X|X]]]; [congruence|]. rewrite (uses_fun _ _ _ U P) in X. apply (create_none _ (c_bg st)) in X. congruence. }
    assert (Q := fun w => known_step _ _ _ _ _ _ w C).
    destruct (String.eqb m "route"); [now apply K|]. rewrite N. cbn [negb].
    destruct (dget v (c_svi st)) as [s|]; [now apply K|]. destruct (make_svi v x i _) as [s e]. now apply K. }
  apply (G l (start vlans bg nl)).
Qed.

(* a device without VLAN interfaces: no VLAN interface is made; the first bridged port is reported, and it and the
   following ports are left alone *)
Theorem no_svi_device : forall l vlans bg nl c, vn_svi nd = false -> create_svi l (start vlans bg nl) = Some c ->
  c_svi c = [] /\
  ((c_errs c = [] /\ (forall i v, In i l -> ~ bridged_on i v) /\ length (c_done c) = length l) \/
   exists l1 i l2 v d1, l = l1 ++ i :: l2 /\ bridged_on i v /\ (forall j w, In j l1 -> ~ bridged_on j w) /\
     c_errs c = [ENoSvi v] /\ c_done c = d1 ++ i :: l2 /\ length d1 = length l1).
Proof.
  intros l vlans bg nl c N H.
  assert (G : forall l st, create_svi l st = Some c -> c_svi c = c_svi st /\
    ((c_errs c = c_errs st /\ (forall i v, In i l -> ~ bridged_on i v) /\ length (c_done c) = (length (c_done st) + length l)%nat) \/
     exists l1 i l2 v d1, l = l1 ++ i :: l2 /\ bridged_on i v /\ (forall j w, In j l1 -> ~ bridged_on j w) /\
       c_errs c = c_errs st ++ [ENoSvi v] /\ c_done c = d1 ++ i :: l2 /\ length d1 = (length (c_done st) + length l1)%nat)).
  { clear l vlans bg nl H. induction l as [|i r IH]; intros st H; cbn [Svi_Model.create_svi] in H.
    { injection H as <-. split; [auto|]. left. split; [auto|]. split; [intros i v []|cbn [length]; lia]. }
    assert (K : forall vl bg j, ~ (exists v, bridged_on i v) -> create_svi r (mk_cs vl bg (c_done st ++ [j]) (c_svi st) (c_nl st) (c_errs st)) = Some c ->
      c_svi c = c_svi st /\
      ((c_errs c = c_errs st /\ (forall j v, In j (i :: r) -> ~ bridged_on j v) /\ length (c_done c) = (length (c_done st) + length (i :: r))%nat) \/
       exists l1 j l2 v d1, i :: r = l1 ++ j :: l2 /\ bridged_on j v /\ (forall j w, In j l1 -> ~ bridged_on j w) /\
       c_errs c = c_errs st ++ [ENoSvi v] /\ c_done c = d1 ++ j :: l2 /\ length d1 = (length (c_done st) + length l1)%nat)).
    { intros vl bg j B X. apply IH in X. cbn [c_svi c_errs c_done] in X. destruct X as [X1 X2]. split; [auto|].
      rewrite app_length in X2. cbn [length] in X2 |- *.
      destruct X2 as [[Y1 [Y2 Y3]]|[l1 [k [l2 [v [d1 [Y1 [Y2 [Y3 [Y4 [Y5 Y6]]]]]]]]]]].
      - left. split; [auto|]. split; [|lia]. intros k v [<-|I] Z; [apply B; eauto|eapply Y2; eauto].
      - right. exists (i :: l1), k, l2, v, d1. split; [now rewrite Y1|]. split; [auto|]. split.
        + intros q w [<-|I] Z; [apply B; eauto|eapply Y3; eauto].
        + split; [auto|]. split; [auto|]. cbn [length]. lia. }
    destruct (port_vlan i) as [v|] eqn:P.
    2:{ eapply K; [|exact H]. intros [v [U _]]. apply port_vlan_uses in U. congruence. }
    apply port_vlan_uses in P. destruct (i_fwd i) as [m|] eqn:F; [|discriminate].
    destruct (create_node_vlan (c_vlans st) (c_bg st) v) as [[[x vl] bg]|]; [|discriminate].
    destruct (String.eqb_spec m "route") as [->|M].
    { eapply K; [|exact H]. intros [w [_ [m [M1 M2]]]]. congruence. }
    rewrite N in H. cbn [negb] in H. injection H as <-. cbn [c_svi c_errs c_done]. split; [auto|]. right.
    exists [], i, r, v, (c_done st). split; [auto|]. split; [split; eauto|]. split; [intros j w []|]. split; [auto|]. split; [auto|]. cbn [length]. lia. }
  apply G in H. exact H.
Qed.
End Port.

(* ---- cases ---- *)

Example bridge_groups_case : no_groups (vt_vlans ex_top) /\ no_groups [] /\
  option_map (fun c => map (fun p => (fst p, nv_id (snd p), nv_bg (snd p))) (c_vlans c)) (ex_svi ex_ports) =
    Some [("red", 1000, Some 1); ("blue", 1001, Some 2)]%string.
Proof.
  split; [|split].
  - intros v x G. cbn [ex_top vt_vlans dget] in G. repeat match type of G with (if ?b then _ else _) = _ => destruct b end; try discriminate; now injection G as <-.
  - intros v x G. discriminate.
  - vm_compute. reflexivity.
Qed.

Definition ex_routed : vintf := ex_port 2 "green" "route" "172.16.2.1/24" [ex_ngb "h2"%string].
Example ports_case : Forall (fun i => NoDup (dkeys (i_attr i))) [ex_port 1 "red" "irb" "172.16.0.1/24" [ex_ngb "h1"%string]; ex_routed] /\
  option_map (fun c => map (fun i => (p_access (i_vlan i), p_access_id (i_vlan i), i_ngb i, i_attr i)) (c_done c))
    (ex_svi [ex_port 1 "red" "irb" "172.16.0.1/24" [ex_ngb "h1"%string]; ex_routed]) = Some
    [(Some "red", Some 1000, [], [("bandwidth", VInt 10)]);
     (None, None, [ex_ngb "h2"], [("ipv4", VStr "172.16.2.1/24"); ("bandwidth", VInt 10)])]%string.
Proof.
  split.
  - repeat (constructor; [cbn [ex_routed ex_port i_attr dkeys map fst]; repeat (constructor; [intros X; repeat (destruct X as [X|X]; try discriminate X); contradiction|]); constructor|]); constructor.
  - vm_compute. reflexivity.
Qed.

Example svi_abort_case : ex_svi [ex_port 1 "pink" "irb" "172.16.0.1/24" []] = None /\ bad_port ex_top [] (ex_port 1 "pink" "irb" "172.16.0.1/24" []).
Proof.
  split; [reflexivity|]. exists "pink"%string. split; [split; [discriminate|left; reflexivity]|]. right. split; [intros []|].
  cbn [ex_top vt_vlans dkeys map fst]. intros X. repeat (destruct X as [X|X]; try discriminate X). exact X.
Qed.

Definition ex_router : vnode := mk_vnode "r1" None ["vlan"]%string None false false false true true None false false.
Example no_svi_case :
  option_map (fun c => (c_svi c, c_errs c, length (c_done c))) (create_svi ex_fmt ex_desc ex_top ex_router (ex_routed :: ex_ports) (start [] None ex_nl)) =
    Some ([], [ENoSvi "red"], 4%nat).
Proof. vm_compute. reflexivity. Qed.

Print Assumptions bridge_groups_exact.
Print Assumptions bridge_groups_distinct.
Print Assumptions ports_exact.
Print Assumptions svi_abort_exact.
Print Assumptions no_svi_device.
