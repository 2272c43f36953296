(* VLAN attributes of links: types, undefined VLANs, forbidden combinations, VLANs of a trunk
   (netsim/modules/vlan.py) *)
From Coq Require Import String ZArith Bool List Lia.
From Verif Require Import Base Box_Model Box_Props Vlan_Model Vlink_Model.
Import ListNotations.
Local Open Scope nat_scope.
Local Open Scope string_scope.
Local Open Scope list_scope.

(* ---- what is a valid VLAN attribute ---- *)

(* a VLAN defined globally, or on the node attached to the link *)
Definition defined (t : vtp) (w : option string) (v : string) : Prop :=
  In v (dkeys (tv_vlans t)) \/ exists n nd, w = Some n /\ dget n (tv_nodes t) = Some nd /\ In v (dkeys (nd_vlans nd)).

(* the VLANs in an attribute value *)
Inductive mentions : val -> string -> Prop :=
| men_str : forall s, mentions (VStr s) s
| men_dict : forall d s, In s (dkeys d) -> mentions (VDict d) s
| men_list : forall l s, In (VStr s) l -> mentions (VList l) s.

Definition right_type (a : string) (x : val) : Prop :=
  if String.eqb a "trunk" then (exists d, x = VDict d) \/ exists l, x = VList l else exists s, x = VStr s.

(* the errors in the vlan attribute of a link or an interface *)
Inductive obj_error (t : vtp) (w : option string) : val -> vke -> Prop :=
| oe_dict : forall v, is_dict v = false -> obj_error t w v (KNotDict w)
| oe_unknown : forall d a, In a (dkeys d) -> ~ In a ["access"; "native"; "mode"; "trunk"] -> obj_error t w (VDict d) (KUnknown w a)
| oe_type : forall d a x, In a ["access"; "native"; "mode"; "trunk"] -> dget a d = Some x -> ~ right_type a x ->
    obj_error t w (VDict d) (KType w a)
| oe_undef : forall d a x v, In a ["access"; "native"; "trunk"] -> dget a d = Some x -> right_type a x -> mentions x v -> ~ defined t w v ->
    obj_error t w (VDict d) (KUndef w a v).

Definition objects (l : vlk) : list (option string * option val) :=
  (None, vk_vlan l) :: map (fun i => (Some (vf_node i), vf_vlan i)) (vk_ifs l).

Definition invalid (t : vtp) (o : option string * option val) (k : vke) : Prop :=
  exists v, snd o = Some v /\ obj_error t (fst o) v k.

(* the attribute after the check *)
Definition normal (x y : val) : Prop :=
  match x with
  | VDict d => exists d', y = VDict d' /\ Forall2 (fun p q => fst q = fst p /\ snd q = match snd p with VNull => VDict [] | z => z end) d d'
  | VList l => exists d', y = VDict d' /\ NoDup (dkeys d') /\ forall k z, In (k, z) d' <-> In (VStr k) l /\ z = VDict []
  | _ => y = x
  end.

(* ---- lemmas ---- *)

Lemma node_of_local : forall t w v, is_local t w v = true <->
  exists n nd, w = Some n /\ dget n (tv_nodes t) = Some nd /\ In v (dkeys (nd_vlans nd)).
Proof.
  intros t w v. unfold is_local, node_of. destruct w as [n|].
  - destruct (dget n (tv_nodes t)) as [nd|] eqn:E; cbn [nd_vlans].
    + rewrite dmem_true. split; [intros H; exists n, nd; auto|]. intros [m [md [Q [R I]]]]. injection Q as <-. rewrite E in R. injection R as <-. auto.
    + split; [discriminate|]. intros [m [md [Q [R I]]]]. injection Q as <-. congruence.
  - split; [discriminate|]. intros [m [md [Q _]]]. discriminate Q.
Qed.

Lemma undefined_iff : forall t w v, negb (is_global t v) && negb (is_local t w v) = true <-> ~ defined t w v.
Proof.
  intros t w v. unfold defined. rewrite <- node_of_local. unfold is_global. rewrite <- dmem_true.
  destruct (dmem v (tv_vlans t)), (is_local t w v); cbn; intuition congruence.
Qed.

Definition list_dict (l : list val) (d0 : dict val) : dict val :=
  fold_left (fun d x => match x with VStr s => dset s (VDict []) d | _ => d end) l d0.

Lemma list_dict_spec : forall l d0, NoDup (dkeys d0) -> (forall k z, In (k, z) d0 -> z = VDict []) ->
  NoDup (dkeys (list_dict l d0)) /\ (forall k z, In (k, z) (list_dict l d0) -> z = VDict []) /\
  forall k, In k (dkeys (list_dict l d0)) <-> In (VStr k) l \/ In k (dkeys d0).
Proof.
  unfold list_dict. induction l as [|x l IH]; intros d0 N Z; cbn [fold_left].
  - split; [auto|]. split; [auto|]. intros k. cbn. tauto.
  - destruct x as [|b|z|s|q|q];
      try (destruct (IH d0 N Z) as [A [B C]]; split; [exact A|]; split; [exact B|]; intros k; rewrite C; cbn; intuition congruence).
    destruct (IH (dset s (VDict []) d0)) as [A [B C]].
    + apply NoDup_dset; auto.
    + intros k z I. clear - I Z. induction d0 as [|[a b] d IHd]; cbn in I.
      * destruct I as [I|[]]. congruence.
      * destruct (String.eqb s a).
        -- destruct I as [I|I]; [congruence|]. eapply Z. right. exact I.
        -- destruct I as [I|I]; [eapply Z; left; exact I|]. apply IHd; [|exact I]. intros k' z' I'. eapply Z. right. exact I'.
    + split; [exact A|]. split; [exact B|]. intros k. rewrite C. rewrite <- !dmem_true. unfold dmem.
      destruct (string_dec k s) as [->|Q].
      * rewrite dget_dset_same. cbn. tauto.
      * rewrite dget_dset_other by auto. cbn. intuition congruence.
Qed.

(* one attribute *)
Definition attr_errs (t : vtp) (w : option string) (a : string) (x : option val) : list vke :=
  match x with
  | None => []
  | Some v => match conv a v with
              | None => [KType w a]
              | Some v' => if String.eqb a "mode" then []
                           else map (KUndef w a) (filter (fun y => negb (is_global t y) && negb (is_local t w y)) (vlan_names v'))
              end
  end.
Definition attr_new (a : string) (x : option val) : option val :=
  match x with None => None | Some v => match conv a v with None => Some v | Some v' => Some v' end end.
Definition attr_col (t : vtp) (w : option string) (a : string) (x : option val) (c : option vcol) : option vcol :=
  match x with
  | None => c
  | Some v =>
      match conv a v with
      | None => c
      | Some v' =>
          if String.eqb a "mode" then c
          else let c0 := match c with Some c => c | None => mk_vcol [] [] [] end in
               Some (mk_vcol (co_list c0 ++ vlan_names v') (co_global c0 ++ filter (is_global t) (vlan_names v'))
                 (match filter (fun y => negb (is_global t y) && is_local t w y) (vlan_names v') with [] => co_nodes c0 | _ => co_nodes c0 ++ node_list w end))
      end
  end.

Lemma check_attr_step : forall t w d va ok e a d' va' ok' e', check_attr t w (d, va, ok, e) a = (d', va', ok', e') ->
  dkeys d' = dkeys d /\ dget a d' = attr_new a (dget a d) /\ dget a va' = attr_col t w a (dget a d) (dget a va) /\
  (forall b, b <> a -> dget b d' = dget b d /\ dget b va' = dget b va) /\
  e' = e ++ attr_errs t w a (dget a d) /\ (ok' = true <-> ok = true /\ attr_errs t w a (dget a d) = []).
Proof.
  intros t w d va ok e a d' va' ok' e' H. unfold check_attr in H. unfold attr_new, attr_col, attr_errs.
  destruct (dget a d) as [v|] eqn:G.
  2:{ injection H as <- <- <- <-. rewrite G, app_nil_r. split; [auto|]. split; [auto|]. split; [auto|]. split; [auto|]. split; [auto|]. intuition. }
  destruct (conv a v) as [v'|] eqn:C.
  2:{ injection H as <- <- <- <-. rewrite G. split; [auto|]. split; [auto|]. split; [auto|]. split; [auto|]. split; [auto|]. intuition discriminate. }
  assert (K : dkeys (dset a v' d) = dkeys d) by (apply dkeys_dset_mem; eapply dget_Some_key; exact G).
  destruct (String.eqb a "mode").
  - injection H as <- <- <- <-. rewrite dget_dset_same, app_nil_r. split; [auto|]. split; [auto|]. split; [auto|].
    split; [intros b B; split; [apply dget_dset_other; auto|auto]|]. split; [auto|]. intuition.
  - injection H as <- <- <- <-. rewrite dget_dset_same, dget_dset_same. split; [auto|]. split; [auto|]. split; [auto|].
    split; [intros b B; split; apply dget_dset_other; auto|]. split; [auto|].
    destruct (filter (fun y => negb (is_global t y) && negb (is_local t w y)) (vlan_names v')); cbn [map]; rewrite andb_true_iff; intuition discriminate.
Qed.

Lemma check_attrs : forall t w L d va ok e d' va' ok' e', NoDup L -> fold_left (check_attr t w) L (d, va, ok, e) = (d', va', ok', e') ->
  dkeys d' = dkeys d /\
  (forall a, In a L -> dget a d' = attr_new a (dget a d) /\ dget a va' = attr_col t w a (dget a d) (dget a va)) /\
  (forall a, ~ In a L -> dget a d' = dget a d /\ dget a va' = dget a va) /\
  e' = e ++ flat_map (fun a => attr_errs t w a (dget a d)) L /\
  (ok' = true <-> ok = true /\ flat_map (fun a => attr_errs t w a (dget a d)) L = []).
Proof.
  intros t w. induction L as [|a L IH]; intros d va ok e d' va' ok' e' N H.
  - cbn in H. injection H as <- <- <- <-. cbn. rewrite app_nil_r. split; [auto|]. split; [intros a []|]. split; [auto|]. split; [auto|]. intuition.
  - change (fold_left (check_attr t w) L (check_attr t w (d, va, ok, e) a) = (d', va', ok', e')) in H.
    destruct (check_attr t w (d, va, ok, e) a) as [[[d1 va1] ok1] e1] eqn:S. apply check_attr_step in S.
    destruct S as [S1 [S2 [S3 [S4 [S5 S6]]]]]. inversion N as [|x y N1 N2]; subst x y.
    destruct (IH _ _ _ _ _ _ _ _ N2 H) as [I1 [I2 [I3 [I4 I5]]]].
    assert (F : flat_map (fun b => attr_errs t w b (dget b d1)) L = flat_map (fun b => attr_errs t w b (dget b d)) L).
    { clear - N1 S4. induction L as [|b L IHL]; cbn [flat_map]; [auto|]. rewrite (proj1 (S4 b (fun E => N1 (or_introl E)))).
      f_equal. apply IHL. intros I. apply N1. now right. }
    rewrite F in I4, I5. split; [congruence|]. split.
    { intros b [<-|I].
      - destruct (I3 a N1) as [J1 J2]. rewrite J1, J2. auto.
      - assert (b <> a) by (intros ->; auto). destruct (I2 b I) as [J1 J2]. rewrite J1, J2. destruct (S4 b H0) as [-> ->]. auto. }
    split.
    { intros b I. assert (b <> a) by (intros ->; apply I; now left). destruct (I3 b (fun J => I (or_intror J))) as [J1 J2].
      rewrite J1, J2. apply S4. auto. }
    cbn [flat_map]. split; [rewrite I4, S5, app_assoc; auto|].
    rewrite I5, S6. split.
    + intros [[A B] C]. rewrite B, C. auto.
    + intros [A B]. apply app_eq_nil in B. tauto.
Qed.

Lemma conv_right : forall a x, conv a x <> None <-> right_type a x.
Proof.
  intros a x. unfold conv, right_type. destruct (String.eqb a "trunk").
  - destruct x; split; intros H; try discriminate; try congruence; eauto; try (destruct H as [[? H]|[? H]]; discriminate H).
  - destruct x; split; intros H; try discriminate; try congruence; eauto; destruct H as [? H]; discriminate H.
Qed.

Lemma list_dict_nil : forall l, NoDup (dkeys (list_dict l [])) /\ (forall k z, In (k, z) (list_dict l []) <-> In (VStr k) l /\ z = VDict []).
Proof.
  intros l. destruct (list_dict_spec l []) as [A [B C]]; [constructor|intros k z []|]. split; [exact A|]. intros k z. split.
  - intros I. split; [|eapply B; exact I]. destruct (proj1 (C k)) as [D|[]]; [|exact D]. apply in_map_iff. exists (k, z). auto.
  - intros [I ->]. assert (J : In k (dkeys (list_dict l []))) by (apply C; auto). apply in_map_iff in J. destruct J as [[k' z] [E J]].
    cbn in E. subst k'. rewrite <- (B _ _ J). exact J.
Qed.

Lemma conv_normal : forall a x y, conv a x = Some y -> normal x y.
Proof.
  intros a x y H. unfold conv in H. destruct (String.eqb a "trunk").
  - destruct x as [|b|z|s|l|d]; try discriminate H; injection H as <-.
    + exists (list_dict l []). split; [reflexivity|]. apply list_dict_nil.
    + exists (map (fun kv => (fst kv, match snd kv with VNull => VDict [] | x => x end)) d). split; [auto|].
      clear. induction d as [|p d IH]; cbn [map]; constructor; auto.
  - destruct x as [|b|z|s|l|d]; try discriminate H; injection H as <-. reflexivity.
Qed.

Lemma conv_names : forall a x y v, conv a x = Some y -> (In v (vlan_names y) <-> mentions x v).
Proof.
  intros a x y v H. unfold conv in H. destruct (String.eqb a "trunk").
  - destruct x as [|b|z|s|l|d]; try discriminate H; injection H as <-; cbn [vlan_names].
    + destruct (list_dict_nil l) as [_ B]. change (fold_left _ l []) with (list_dict l []). split.
      * intros I. apply in_map_iff in I. destruct I as [[k z] [<- I]]. apply B in I. constructor. tauto.
      * intros M. inversion M as [|?|? ? M']; subst. apply in_map_iff. exists (v, VDict []). split; [auto|]. apply B. auto.
    + unfold dkeys. rewrite map_map. cbn [fst]. split; [intros I; constructor; exact I|]. intros M. inversion M; subst. auto.
  - destruct x as [|b|z|s|l|d]; try discriminate H; injection H as <-. cbn [vlan_names]. split.
    + intros [<-|[]]. constructor.
    + intros M. inversion M; subst. now left.
Qed.

(* the errors of one object *)
Lemma attr_errs_In : forall t w a x k, In k (attr_errs t w a x) <-> exists v, x = Some v /\
  ((k = KType w a /\ ~ right_type a v) \/ (a <> "mode" /\ right_type a v /\ exists n, k = KUndef w a n /\ mentions v n /\ ~ defined t w n)).
Proof.
  intros t w a x k. unfold attr_errs. destruct x as [v|].
  2:{ split; [intros []|]. intros [v [H _]]. discriminate H. }
  pose proof (conv_right a v) as R. destruct (conv a v) as [v'|] eqn:C.
  - assert (RT : right_type a v) by (apply R; discriminate). destruct (String.eqb_spec a "mode") as [->|M].
    + split; [intros []|]. intros [u [E [[_ H]|[H _]]]]; [injection E as <-; contradiction|congruence].
    + rewrite in_map_iff. split.
      * intros [n [<- I]]. apply filter_In in I. destruct I as [I J]. apply undefined_iff in J. apply (conv_names _ _ _ _ C) in I.
        exists v. split; [auto|]. right. split; [auto|]. split; [auto|]. exists n. auto.
      * intros [u [E [[_ H]|[_ [_ [n [-> [H1 H2]]]]]]]]; injection E as <-; [contradiction|]. exists n. split; [auto|].
        apply filter_In. split; [apply (conv_names _ _ _ _ C); auto|]. apply undefined_iff. auto.
  - assert (RT : ~ right_type a v) by (intros H; apply R in H; congruence). split.
    + intros [<-|[]]. exists v. auto.
    + intros [u [E [[-> _]|[_ [H _]]]]]; [now left|]. injection E as <-. contradiction.
Qed.

Definition obj_col (t : vtp) (w : option string) (o : option val) (a : string) (c : option vcol) : option vcol :=
  match o with Some (VDict d) => attr_col t w a (dget a d) c | _ => c end.

Lemma check_obj_exact : forall t w o va o' va' ok e, check_obj t w o va = (o', va', ok, e) ->
  (forall k, In k e <-> exists v, o = Some v /\ obj_error t w v k) /\ (ok = true <-> e = []) /\
  (ok = true -> match o with
                | None => o' = None
                | Some (VDict d) => exists d', o' = Some (VDict d') /\ dkeys d' = dkeys d /\
                    forall a x, dget a d = Some x -> exists y, dget a d' = Some y /\ conv a x = Some y /\ normal x y
                | Some _ => False
                end) /\
  (ok = true -> forall a, (In a ["access"; "native"; "mode"; "trunk"] -> dget a va' = obj_col t w o a (dget a va)) /\
     (~ In a ["access"; "native"; "mode"; "trunk"] -> dget a va' = dget a va)).
Proof.
  intros t w o va o' va' ok e H. unfold check_obj in H. destruct o as [v|].
  2:{ injection H as <- <- <- <-. split; [intros k; split; [intros []|intros [v [Q _]]; discriminate Q]|]. split; [tauto|]. split; [auto|].
      intros _ a. split; auto. }
  destruct (is_dict v) eqn:D.
  2:{ assert (H' : (Some v, va, false, [KNotDict w]) = (o', va', ok, e)) by (destruct v; [exact H ..|discriminate D]).
      injection H' as <- <- <- <-. split.
      { intros k. split.
        - intros [<-|[]]. exists v. split; [auto|]. constructor. auto.
        - intros [u [E X]]. injection E as <-. inversion X; subst; [now left|discriminate D|discriminate D|discriminate D]. }
      split; [intuition discriminate|]. split; discriminate. }
  destruct v as [| | | | |d]; try discriminate D. clear D.
  cbv zeta in H. set (unk := filter (fun a => negb (memS a LINK_ATTR)) (dkeys d)) in *.
  destruct (fold_left (check_attr t w) LINK_ATTR (d, va, match unk with [] => true | _ => false end, map (KUnknown w) unk)) as [[[d1 va1] ok1] e1] eqn:F.
  injection H as <- <- <- <-. apply check_attrs in F.
  2:{ unfold LINK_ATTR. repeat constructor; cbn; intuition discriminate. }
  destruct F as [F1 [F2 [F3 [F4 F5]]]].
  assert (U : forall a, In a unk <-> In a (dkeys d) /\ ~ In a LINK_ATTR).
  { intros a. unfold unk. rewrite filter_In, negb_true_iff, memS_false. tauto. }
  split; [|split; [|split]].
  - intros k. rewrite F4, in_app_iff, in_map_iff, in_flat_map. split.
    + intros [[a [<- A]]|[a [A B]]].
      * apply U in A. exists (VDict d). split; [auto|]. constructor; tauto.
      * apply attr_errs_In in B. destruct B as [v [B1 B2]]. exists (VDict d). split; [auto|].
        destruct B2 as [[-> B2]|[M [RT [n [-> [B2 B3]]]]]].
        -- econstructor; [exact A|exact B1|exact B2].
        -- econstructor; [|exact B1|exact RT|exact B2|exact B3]. unfold LINK_ATTR in A. cbn in A. cbn. intuition congruence.
    + intros [v [E X]]. injection E as <-. inversion X as [? D|? a A1 A2|? a x A1 A2 A3|? a x n A1 A2 A3 A4 A5]; subst.
      * discriminate D.
      * left. exists a. split; [auto|]. apply U. auto.
      * right. exists a. split; [exact A1|]. apply attr_errs_In. exists x. auto.
      * right. exists a. split; [cbn in A1; cbn; tauto|]. apply attr_errs_In. exists x. split; [auto|]. right.
        split; [cbn in A1; intros ->; intuition discriminate|]. split; [auto|]. exists n. auto.
  - rewrite F4, F5. split.
    + intros [A B]. rewrite B, app_nil_r. destruct unk; [auto|discriminate A].
    + intros A. apply app_eq_nil in A. destruct A as [A B]. split; [destruct unk; [auto|discriminate A]|auto].
  - intros OK. apply F5 in OK. destruct OK as [O1 O2]. exists d1. split; [auto|]. split; [auto|]. intros a x G.
    assert (A : In a LINK_ATTR).
    { destruct (memS a LINK_ATTR) eqn:M; [apply memS_true; auto|]. apply memS_false in M. assert (I : In a unk) by (apply U; split; [eapply dget_Some_key; exact G|auto]).
      destruct unk; [destruct I|discriminate O1]. }
    destruct (F2 a A) as [G1 _]. rewrite G in G1. cbn [attr_new] in G1.
    assert (Z : attr_errs t w a (Some x) = []).
    { destruct (attr_errs t w a (Some x)) as [|k r] eqn:Q; [auto|]. exfalso. assert (In k []); [|auto]. rewrite <- O2. apply in_flat_map. exists a.
      split; [auto|]. rewrite G, Q. now left. }
    unfold attr_errs in Z. destruct (conv a x) as [y|] eqn:C; [|discriminate Z]. exists y. split; [auto|]. split; [auto|]. eapply conv_normal. exact C.
  - intros _ a. split; intros A; [apply (F2 a A)|apply (F3 a A)].
Qed.

(* ---- a link ---- *)

Definition accepted (t : vtp) (o : option string * option val) : Prop := forall k, ~ invalid t o k.

Definition vif_obj (i : vif) : option string * option val := (Some (vf_node i), vf_vlan i).

(* the first invalid object of a list *)
Definition first_invalid (t : vtp) (os : list (option string * option val)) (k : vke) : Prop :=
  exists p o, nth_error os p = Some o /\ invalid t o k /\ forall q o', q < p -> nth_error os q = Some o' -> accepted t o'.

Definition clean (x y : vif) : Prop :=
  vf_node y = vf_node x /\ vf_data y = vf_data x /\
  match vf_vlan x with
  | None => vf_vlan y = None
  | Some (VDict d) => exists d', vf_vlan y = Some (VDict d') /\ dkeys d' = dkeys d /\
      forall a z, dget a d = Some z -> exists z', dget a d' = Some z' /\ normal z z'
  | Some _ => False
  end.

Fixpoint cols (t : vtp) (os : list (option string * option val)) (a : string) (c : option vcol) : option vcol :=
  match os with
  | [] => c
  | o :: r => cols t r a (obj_col t (fst o) (snd o) a c)
  end.

Lemma accepted_nil : forall t w o e, (forall k, In k e <-> exists v, o = Some v /\ obj_error t w v k) -> (e = [] <-> accepted t (w, o)).
Proof.
  intros t w o e H. split.
  - intros -> k [v V]. apply (H k). exists v. exact V.
  - intros A. destruct e as [|k e]; [auto|]. exfalso. apply (A k). apply (H k). now left.
Qed.

Lemma first_cons_bad : forall t o os k, invalid t o k -> first_invalid t (o :: os) k.
Proof. intros t o os k I. exists 0, o. split; [auto|]. split; [auto|]. intros q o' Q. lia. Qed.

Lemma first_cons : forall t o os k, first_invalid t (o :: os) k <-> invalid t o k \/ (accepted t o /\ first_invalid t os k).
Proof.
  intros t o os k. split.
  - intros [[|p] [x [N [I F]]]]; cbn in N.
    + injection N as <-. auto.
    + right. split; [apply (F 0 o); [lia|auto]|]. exists p, x. split; [auto|]. split; [auto|]. intros q y Q Y. apply (F (S q) y); [lia|auto].
  - intros [I|[A [p [x [N [I F]]]]]]; [apply first_cons_bad; auto|]. exists (S p), x. split; [auto|]. split; [auto|].
    intros [|q] y Q Y; cbn in Y; [injection Y as <-; auto|]. apply (F q y); [lia|auto].
Qed.

Lemma check_ifs_exact : forall t l va l' va' ok e, check_ifs t l va = (l', va', ok, e) ->
  (forall k, In k e <-> first_invalid t (map vif_obj l) k) /\ (ok = true <-> e = []) /\
  (ok = true -> Forall2 clean l l') /\
  (ok = true -> forall a, (In a ["access"; "native"; "mode"; "trunk"] -> dget a va' = cols t (map vif_obj l) a (dget a va)) /\
     (~ In a ["access"; "native"; "mode"; "trunk"] -> dget a va' = dget a va)).
Proof.
  intros t. induction l as [|i l IH]; intros va l' va' ok e H; cbn [check_ifs] in H.
  - injection H as <- <- <- <-. split; [intros k; split; [intros []|intros [[|p] [o [N _]]]; discriminate N]|]. split; [tauto|].
    split; [constructor|]. intros _ a. cbn. tauto.
  - destruct (check_obj t (Some (vf_node i)) (vf_vlan i) va) as [[[o va1] ok1] e1] eqn:C. apply check_obj_exact in C.
    destruct C as [C1 [C2 [C3 C4]]]. pose proof (accepted_nil _ _ _ _ C1) as A. destruct ok1.
    + assert (E1 : e1 = []) by (apply C2; auto). subst e1. pose proof (proj1 A eq_refl) as AC.
      destruct (check_ifs t l va1) as [[[r va2] ok2] e2] eqn:R. injection H as <- <- <- <-. destruct (IH _ _ _ _ _ R) as [I1 [I2 [I3 I4]]].
      split; [|split; [|split]].
      * intros k. cbn [app map]. rewrite first_cons, I1. split; [auto|]. intros [X|X]; [exfalso; exact (AC k X)|tauto].
      * cbn [app]. exact I2.
      * intros O. constructor; [|auto]. split; [auto|]. split; [auto|]. cbn [vf_vlan]. specialize (C3 eq_refl).
        destruct (vf_vlan i) as [[| | | | |d]|]; try contradiction; [|auto].
        destruct C3 as [d' [D1 [D2 D3]]]. exists d'. split; [auto|]. split; [auto|]. intros a z Z. destruct (D3 a z Z) as [z' [Z1 [Z2 Z3]]]. eauto.
      * intros O a. specialize (C4 eq_refl a). destruct C4 as [C4 C5]. specialize (I4 O a). destruct I4 as [I4 I5].
        split; intros L; [rewrite (I4 L), (C4 L)|rewrite (I5 L), (C5 L)]; reflexivity.
    + injection H as <- <- <- <-. split; [|split; [|split; discriminate]].
      * intros k. cbn [map]. rewrite first_cons, C1. split; [auto|]. intros [X|[X _]]; [auto|]. exfalso.
        apply A in X. apply C2 in X. discriminate X.
      * exact C2.
Qed.

Lemma obj_vlan : forall t l l' va ok e, check_link t l = (l', va, ok, e) ->
  (forall k, In k e <-> first_invalid t (objects l) k) /\ (ok = true <-> e = []) /\
  (ok = true -> vk_name l' = vk_name l /\ vk_index l' = vk_index l /\ vk_data l' = vk_data l /\ Forall2 clean (vk_ifs l) (vk_ifs l') /\
     clean (mk_vif "" (vk_vlan l) []) (mk_vif "" (vk_vlan l') [])) /\
  (ok = true -> forall a, (In a ["access"; "native"; "mode"; "trunk"] -> dget a va = cols t (objects l) a None) /\
     (~ In a ["access"; "native"; "mode"; "trunk"] -> dget a va = None)).
Proof.
  intros t l l' va ok e H. unfold check_link in H.
  destruct (check_obj t None (vk_vlan l) []) as [[[o va1] ok1] e1] eqn:C. apply check_obj_exact in C.
  destruct C as [C1 [C2 [C3 C4]]]. pose proof (accepted_nil _ _ _ _ C1) as A. unfold objects. change (fun i => (Some (vf_node i), vf_vlan i)) with vif_obj.
  destruct ok1.
  - assert (E1 : e1 = []) by (apply C2; auto). subst e1. pose proof (proj1 A eq_refl) as AC.
    destruct (check_ifs t (vk_ifs l) va1) as [[[r va2] ok2] e2] eqn:R. injection H as <- <- <- <-. apply check_ifs_exact in R.
    destruct R as [I1 [I2 [I3 I4]]]. split; [|split; [|split]].
    + intros k. cbn [app]. rewrite first_cons, I1. split; [auto|]. intros [X|X]; [exfalso; exact (AC k X)|tauto].
    + exact I2.
    + intros O. cbn [set_ifs set_vlan vk_name vk_index vk_data vk_ifs vk_vlan]. split; [auto|]. split; [auto|]. split; [auto|]. split; [auto|].
      split; [auto|]. split; [auto|]. cbn [vf_vlan]. specialize (C3 eq_refl).
      destruct (vk_vlan l) as [[| | | | |d]|]; try contradiction; [|auto].
      destruct C3 as [d' [D1 [D2 D3]]]. exists d'. split; [auto|]. split; [auto|]. intros a z Z. destruct (D3 a z Z) as [z' [Z1 [Z2 Z3]]]. eauto.
    + intros O a. specialize (C4 eq_refl a). destruct C4 as [C4 C5]. specialize (I4 O a). destruct I4 as [I4 I5].
      split; intros L; [rewrite (I4 L), (C4 L)|rewrite (I5 L), (C5 L)]; reflexivity.
  - injection H as <- <- <- <-. split; [|split; [exact C2|split; discriminate]].
    intros k. rewrite first_cons, C1. split; [auto|]. intros [X|[X _]]; [auto|]. exfalso. apply A in X. apply C2 in X. discriminate X.
Qed.

(* an object with an attribute; the object uses a VLAN in the attribute *)
Definition has (a : string) (o : option string * option val) : Prop := exists d x, snd o = Some (VDict d) /\ dget a d = Some x.
Definition uses (a : string) (o : option string * option val) (v : string) : Prop :=
  exists d x, snd o = Some (VDict d) /\ dget a d = Some x /\ mentions x v.

Definition cL (x : option vcol) : list string := match x with Some k => co_list k | None => [] end.
Definition cG (x : option vcol) : list string := match x with Some k => co_global k | None => [] end.
Definition cN (x : option vcol) : list string := match x with Some k => co_nodes k | None => [] end.

Lemma cols_spec : forall t a os c, a <> "mode" -> In a ["access"; "native"; "mode"; "trunk"] -> (forall o, In o os -> accepted t o) ->
  (cols t os a c <> None <-> c <> None \/ exists o, In o os /\ has a o) /\
  (forall v, In v (cL (cols t os a c)) <-> In v (cL c) \/ exists o, In o os /\ uses a o v) /\
  (forall v, In v (cG (cols t os a c)) <-> In v (cG c) \/ (In v (dkeys (tv_vlans t)) /\ exists o, In o os /\ uses a o v)) /\
  (forall n, In n (cN (cols t os a c)) <-> In n (cN c) \/ exists o v, In o os /\ fst o = Some n /\ uses a o v /\ ~ In v (dkeys (tv_vlans t))) /\
  (forall z, (forall o d x, In o os -> snd o = Some (VDict d) -> dget a d = Some x -> exists s, x = VStr s) ->
     cL c = z -> cL (cols t os a c) = z ++ flat_map (fun o => match snd o with Some (VDict d) => match dget a d with Some (VStr s) => [s] | _ => [] end | _ => [] end) os).
Proof.
  intros t a os c M A. revert c. induction os as [|[w o] os IH]; intros c AC; cbn [cols].
  - cbn. split; [split; [auto|intros [H|[o [[] _]]]; auto]|]. split; [intros v; split; [auto|intros [H|[o [[] _]]]; auto]|].
    split; [intros v; split; [auto|intros [H|[_ [o [[] _]]]]; auto]|]. split; [intros n; split; [auto|intros [H|[o [v [[] _]]]]; auto]|].
    intros z _ <-. rewrite app_nil_r. auto.
  - cbn [fst snd]. destruct (IH (obj_col t w o a c) (fun x X => AC x (or_intror X))) as [I1 [I2 [I3 [I4 I5]]]]. clear IH.
    assert (AO := AC (w, o) (or_introl eq_refl)).
    assert (S : (obj_col t w o a c <> None <-> c <> None \/ has a (w, o)) /\
      (forall v, In v (cL (obj_col t w o a c)) <-> In v (cL c) \/ uses a (w, o) v) /\
      (forall v, In v (cG (obj_col t w o a c)) <-> In v (cG c) \/ (In v (dkeys (tv_vlans t)) /\ uses a (w, o) v)) /\
      (forall n, In n (cN (obj_col t w o a c)) <-> In n (cN c) \/ (w = Some n /\ exists v, uses a (w, o) v /\ ~ In v (dkeys (tv_vlans t)))) /\
      ((forall d x, o = Some (VDict d) -> dget a d = Some x -> exists s, x = VStr s) ->
         cL (obj_col t w o a c) = cL c ++ match o with Some (VDict d) => match dget a d with Some (VStr s) => [s] | _ => [] end | _ => [] end)).
    { clear I1 I2 I3 I4 I5. unfold has, uses. cbn [fst snd].
      assert (Z : (forall d x, o = Some (VDict d) -> dget a d = Some x -> False) -> obj_col t w o a c = c).
      { intros Q. unfold obj_col. destruct o as [[| | | | |d]|]; auto. unfold attr_col. destruct (dget a d) eqn:D; [exfalso; eapply Q; eauto|auto]. }
      assert (DEC : (exists d x, o = Some (VDict d) /\ dget a d = Some x) \/ (forall d x, o = Some (VDict d) -> dget a d = Some x -> False)).
      { destruct o as [[| | | | |d]|]; try (right; intros; discriminate). destruct (dget a d) as [x|] eqn:D; [left; eauto|]. right. intros d' x Q. injection Q as <-. congruence. }
      destruct DEC as [[d [x [-> D]]]|NX].
      2:{ rewrite (Z NX). split; [|split; [|split; [|split]]].
          - split; [auto|]. intros [H|[d' [x [Q1 Q2]]]]; [auto|exfalso; eauto].
          - intros v. split; [auto|]. intros [H|[d' [x [Q1 [Q2 Q3]]]]]; [auto|exfalso; eauto].
          - intros v. split; [auto|]. intros [H|[Q0 [d' [x [Q1 [Q2 Q3]]]]]]; [auto|exfalso; eauto].
          - intros v. split; [auto|]. intros [H|[Q0 [n' [[d' [x [Q1 [Q2 Q3]]]] Q4]]]]; [auto|exfalso; eauto].
          - intros _. destruct o as [[| | | | |d]|]; try (rewrite app_nil_r; auto; fail). destruct (dget a d) as [x|] eqn:D; [exfalso; eauto|rewrite app_nil_r; auto]. }
      assert (RT : right_type a x).
      { destruct (conv a x) as [y|] eqn:C; [apply conv_right; congruence|]. exfalso. apply (AO (KType w a)). exists (VDict d). split; [auto|].
        econstructor; [exact A|exact D|]. intros R. apply conv_right in R. congruence. }
      assert (DF : forall v, mentions x v -> defined t w v).
      { intros v Mv. destruct (negb (is_global t v) && negb (is_local t w v)) eqn:U.
        - exfalso. apply undefined_iff in U. apply (AO (KUndef w a v)). exists (VDict d). split; [auto|].
          econstructor; [|exact D|exact RT|exact Mv|exact U]. cbn in A |- *. intuition congruence.
        - assert (X : ~ ~ defined t w v) by (rewrite <- undefined_iff; congruence). unfold defined in *. rewrite <- dmem_true in *.
          rewrite <- node_of_local in *. destruct (dmem v (tv_vlans t)), (is_local t w v); auto; exfalso; apply X; intuition discriminate. }
      unfold obj_col, attr_col. rewrite D. destruct (conv a x) as [y|] eqn:C; [|apply conv_right in RT; congruence].
      pose proof (fun v => conv_names a x y v C) as CN. destruct (String.eqb_spec a "mode") as [E|_]; [contradiction|].
      cbv zeta. set (c0 := match c with Some c => c | None => mk_vcol [] [] [] end).
      assert (Lc : co_list c0 = cL c) by (unfold c0, cL; destruct c; auto). assert (Gc : co_global c0 = cG c) by (unfold c0, cG; destruct c; auto).
      assert (Nc : co_nodes c0 = cN c) by (unfold c0, cN; destruct c; auto).
      split; [|split; [|split; [|split]]].
      - split; [intros _; right; exists d, x; auto|discriminate].
      - intros v. unfold cL at 1. cbn [co_list]. rewrite in_app_iff, Lc, CN. split.
        + intros [H|H]; [auto|]. right. exists d, x. auto.
        + intros [H|[d' [x' [Q1 [Q2 Q3]]]]]; [auto|]. injection Q1 as <-. rewrite D in Q2. injection Q2 as <-. auto.
      - intros v. unfold cG at 1. cbn [co_global]. rewrite in_app_iff, Gc, filter_In, CN. unfold is_global. rewrite dmem_true. split.
        + intros [H|[H H']]; [auto|]. right. split; [auto|]. exists d, x. auto.
        + intros [H|[H0 [d' [x' [Q1 [Q2 Q3]]]]]]; [auto|]. injection Q1 as <-. rewrite D in Q2. injection Q2 as <-. auto.
      - intros n. unfold cN at 1. cbn [co_nodes].
        assert (FF : (exists v, In v (filter (fun y0 => negb (is_global t y0) && is_local t w y0) (vlan_names y))) <->
                     exists v, mentions x v /\ ~ In v (dkeys (tv_vlans t))).
        { split.
          - intros [v V]. apply filter_In in V. destruct V as [V1 V2]. apply andb_true_iff in V2. destruct V2 as [V2 _]. exists v.
            split; [apply CN; auto|]. unfold is_global in V2. rewrite <- dmem_true. destruct (dmem v (tv_vlans t)); discriminate.
          - intros [v [V1 V2]]. exists v. apply filter_In. split; [apply CN; auto|]. destruct (DF v V1) as [V3|V3]; [contradiction|].
            apply node_of_local in V3. rewrite V3. unfold is_global. rewrite <- dmem_true in V2. destruct (dmem v (tv_vlans t)); [congruence|auto]. }
        assert (EX : (exists v, uses a (w, Some (VDict d)) v /\ ~ In v (dkeys (tv_vlans t))) <-> exists v, mentions x v /\ ~ In v (dkeys (tv_vlans t))).
        { split; intros [v [V1 V2]]; exists v; (split; [|auto]).
          - destruct V1 as [d' [x' [Q1 [Q2 Q3]]]]. injection Q1 as <-. rewrite D in Q2. injection Q2 as <-. auto.
          - exists d, x. auto. }
        unfold uses in EX. cbn [snd] in EX. rewrite EX, <- FF.
        destruct (filter (fun y0 => negb (is_global t y0) && is_local t w y0) (vlan_names y)) as [|v r].
        + rewrite Nc. split; [auto|]. intros [H|[_ [v []]]]. auto.
        + rewrite in_app_iff, Nc. unfold node_list. split.
          * intros [H|H]; [auto|]. right. split; [|exists v; now left]. destruct w as [m|]; [destruct H as [<-|[]]; auto|destruct H].
          * intros [H|[-> _]]; [auto|]. right. now left.
      - intros ST. destruct (ST d x eq_refl D) as [s ->]. unfold cL at 1. cbn [co_list]. rewrite Lc. f_equal.
        unfold conv in C. destruct (String.eqb a "trunk"); [discriminate C|]. injection C as <-. reflexivity. }
    destruct S as [S1 [S2 [S3 [S4 S5]]]].
    split; [|split; [|split; [|split]]].
    + rewrite I1, S1. cbn [In]. split.
      * intros [[H|H]|[o' [H1 H2]]]; [auto|right; exists (w, o); auto|right; exists o'; auto].
      * intros [H|[o' [[<-|H1] H2]]]; [auto|auto|right; exists o'; auto].
    + intros v. rewrite I2, S2. cbn [In]. split.
      * intros [[H|H]|[o' [H1 H2]]]; [auto|right; exists (w, o); auto|right; exists o'; auto].
      * intros [H|[o' [[<-|H1] H2]]]; [auto|auto|right; exists o'; auto].
    + intros v. rewrite I3, S3. cbn [In]. split.
      * intros [[H|[H0 H]]|[H0 [o' [H1 H2]]]]; [auto|right; split; [auto|]; exists (w, o); auto|right; split; [auto|]; exists o'; auto].
      * intros [H|[H0 [o' [[<-|H1] H2]]]]; [auto|auto|right; split; [auto|]; exists o'; auto].
    + intros n. rewrite I4, S4. cbn [In]. split.
      * intros [[H|[H0 [v [H1 H2]]]]|[o' [v [H1 H2]]]]; [auto|right; exists (w, o), v; auto|right; exists o', v; auto].
      * intros [H|[o' [v [[<-|H1] [H2 H3]]]]]; [auto|cbn [fst] in H2; left; right; split; [auto|]; exists v; auto|right; exists o', v; auto].
    + intros z ST E. cbn [flat_map snd]. rewrite app_assoc. apply I5.
      * intros o' d x I. apply ST. now right.
      * rewrite S5; [rewrite E; auto|]. intros d x -> D. apply (ST (w, Some (VDict d)) d x); [now left|auto|auto].
Qed.

(* C131: the errors reported for a link are the errors of its first invalid object (the link, then its
   interfaces in order); otherwise lists of VLANs become dictionaries and nothing else changes *)
Theorem link_vlan_errors_exact : forall t l l' va ok e, check_link t l = (l', va, ok, e) ->
  (forall k, In k e <-> first_invalid t (objects l) k) /\
  (ok = true <-> forall o, In o (objects l) -> accepted t o) /\
  (ok = true -> e = [] /\ vk_name l' = vk_name l /\ vk_index l' = vk_index l /\ vk_data l' = vk_data l /\
     Forall2 clean (vk_ifs l) (vk_ifs l') /\ clean (mk_vif "" (vk_vlan l) []) (mk_vif "" (vk_vlan l') [])).
Proof.
  intros t l l' va ok e H. apply obj_vlan in H. destruct H as [H1 [H2 [H3 H4]]]. split; [exact H1|]. split.
  - rewrite H2. split.
    + intros -> o I. apply In_nth_error in I. destruct I as [p P].
      assert (Q : forall p o, nth_error (objects l) p = Some o -> accepted t o); [|eauto].
      clear p o P. intros p. induction p as [p IH] using lt_wf_ind. intros o P k K. apply (H1 k). exists p, o. split; [auto|]. split; [auto|].
      intros q o' Q Q'. eapply IH; eauto.
    + intros A. destruct e as [|k e]; [auto|]. exfalso. destruct (proj1 (H1 k) (or_introl eq_refl)) as [p [o [P [K _]]]].
      apply nth_error_In in P. exact (A o P k K).
  - intros O. split; [apply H2; auto|]. auto.
Qed.

(* the VLANs collected from an accepted link *)
Definition attr_list (a : string) (l : vlk) : list string :=
  flat_map (fun o => match snd o with Some (VDict d) => match dget a d with Some (VStr s) => [s] | _ => [] end | _ => [] end) (objects l).

(* C131: the VLANs collected from an accepted link are the VLANs of the link and of all its interfaces *)
Theorem link_vlans_collected : forall t l l' va e, check_link t l = (l', va, true, e) -> forall a, In a ["access"; "native"; "trunk"] ->
  (dmem a va = true <-> exists o, In o (objects l) /\ has a o) /\
  forall c, dget a va = Some c ->
    (forall v, In v (co_list c) <-> exists o, In o (objects l) /\ uses a o v) /\
    (forall v, In v (co_global c) <-> In v (dkeys (tv_vlans t)) /\ exists o, In o (objects l) /\ uses a o v) /\
    (forall n, In n (co_nodes c) <-> exists i v, In i (vk_ifs l) /\ vf_node i = n /\ uses a (vif_obj i) v /\ ~ In v (dkeys (tv_vlans t))) /\
    (a <> "trunk" -> co_list c = attr_list a l).
Proof.
  intros t l l' va e H a A. pose proof (link_vlan_errors_exact _ _ _ _ _ _ H) as E. destruct E as [_ [E _]]. pose proof (proj1 E eq_refl) as AC.
  apply obj_vlan in H. destruct H as [_ [_ [_ H]]]. specialize (H eq_refl a). destruct H as [H _].
  assert (A4 : In a ["access"; "native"; "mode"; "trunk"]) by (cbn in A |- *; intuition).
  assert (M : a <> "mode") by (intros ->; cbn in A; intuition discriminate). specialize (H A4).
  destruct (cols_spec t a (objects l) None M A4 AC) as [C1 [C2 [C3 [C4 C5]]]]. rewrite <- H in *.
  split.
  - unfold dmem. destruct (dget a va) as [c|] eqn:D.
    + split; [intros _|auto]. destruct (proj1 C1) as [Q|Q]; [discriminate|congruence|exact Q].
    + split; [discriminate|]. intros X. exfalso. apply (proj2 C1); auto.
  - intros c D. rewrite D in *. cbn [cL cG cN] in *. split; [|split; [|split]].
    + intros v. rewrite C2. cbn. tauto.
    + intros v. rewrite C3. cbn. tauto.
    + intros n. rewrite C4. cbn [In]. split.
      * intros [[]|[o [v [I [F [U G]]]]]]. unfold objects in I. destruct I as [<-|I]; [discriminate F|].
        apply in_map_iff in I. destruct I as [i [<- I]]. cbn in F. injection F as F. exists i, v. auto.
      * intros [i [v [I [F [U G]]]]]. right. exists (vif_obj i), v. split; [|cbn; rewrite F; auto]. right. apply in_map_iff. exists i. auto.
    + intros T. specialize (C5 []). cbn [app] in C5. apply C5; [|reflexivity].
      intros o d x I O X. specialize (AC o I). destruct (conv a x) as [y|] eqn:C.
      * assert (R : right_type a x) by (apply conv_right; congruence). unfold right_type in R.
        destruct (String.eqb_spec a "trunk") as [Z|Z]; [contradiction|exact R].
      * exfalso. apply (AC (KType (fst o) a)). exists (VDict d). split; [auto|]. econstructor; [exact A4|exact X|].
        intros R. apply conv_right in R. congruence.
Qed.

(* ---- a link between two switches and a host ---- *)

Definition vx_sw (l : list (string * dict val)) : vnd := mk_vnd l None true.
Definition vx_topo : vtp :=
  mk_vtp [("red", [("id", VInt 1000); ("prefix", VDict [("ipv4", VStr "172.16.0.0/24")])]);
          ("blue", [("id", VInt 1001); ("mode", VStr "bridge"); ("prefix", VDict [("ipv4", VStr "172.16.1.0/24")])])] None
    [("s1", vx_sw [("green", [("prefix", VDict [("ipv4", VStr "172.16.2.0/24")])])]); ("s2", vx_sw []); ("h1", mk_vnd [] None false)]
    ["id"; "vni"; "mode"; "prefix"].
Definition vx_link : vlk :=
  mk_vlk "links[1]" 1 (Some (VDict [("trunk", VList [VStr "red"; VStr "blue"])])) []
    [mk_vif "s1" (Some (VDict [("native", VStr "red")])) []; mk_vif "s2" None []; mk_vif "h1" None []].

Example vx_checked : match check_link vx_topo vx_link with
  | (l, va, ok, e) => vk_vlan l = Some (VDict [("trunk", VDict [("red", VDict []); ("blue", VDict [])])]) /\
      map fst va = ["trunk"; "native"] /\ colist "trunk" va = ["red"; "blue"] /\ colist "native" va = ["red"] /\ ok = true /\ e = []
  end.
Proof. vm_compute. repeat split; reflexivity. Qed.

(* only the errors of the first interface are reported; the VLAN green is not known to the second switch *)
Example vx_undefined :
  let l v1 v2 := mk_vlk "links[1]" 1 None [] [mk_vif "s1" (Some (VDict [("access", VStr v1)])) []; mk_vif "s2" (Some (VDict [("access", VStr v2); ("mtu", VInt 9)])) []] in
  snd (check_link vx_topo (l "purple" "green")) = [KUndef (Some "s1") "access" "purple"] /\
  snd (check_link vx_topo (l "green" "green")) = [KUnknown (Some "s2") "mtu"; KUndef (Some "s2") "access" "green"].
Proof. split; vm_compute; reflexivity. Qed.

Print Assumptions link_vlan_errors_exact.
Print Assumptions link_vlans_collected.
