(* Static routes through a gateway: closed forms of the gateway lookup, the gateway of last resort and the cache. *)
From Coq Require Import String Bool Arith Lia List.
From Verif Require Import Base Sroute_Model Sroute_Props.
Import ListNotations.
Open Scope nat_scope.

(* ---- specification vocabulary ---- *)

Definition has_gw (g : ngb) : bool := match n_gw g with GwNone => false | _ => true end.

(* The configured gateway of an interface: its own gateway data, otherwise those of the first neighbor having the
   attribute *)
Definition conf_gw (i : sintf) : gwv :=
  if gw_true (i_gw i) then i_gw i
  else match find has_gw (i_ngb i) with Some g => n_gw g | None => i_gw i end.
Definition conf_addr (i : sintf) : afd aval := match conf_gw i with GwBox d _ => d | _ => no_af end.

(* A neighbor that can be the gateway of last resort *)
Definition usable (t : stopo) (f : af) (g : ngb) : bool :=
  negb (is_host t (n_node g)) && is_str (aget f (n_addr g)) && negb (n_dhcp f g).
Definition last_gw (t : stopo) (f : af) (i : sintf) : option string :=
  match find (usable t f) (i_ngb i) with Some g => str_of (aget f (n_addr g)) | None => None end.

Definition memA (f : af) (l : list af) : bool := existsb (af_eqb f) l.
Definition opt_str (o : option string) : option aval := match o with Some s => Some (AStr s) | None => None end.
(* The addresses of the gateway of last resort for the wanted address families *)
Definition last_addr (t : stopo) (m : list af) (i : sintf) : afd aval :=
  mk_af (if memA V4 m then opt_str (last_gw t V4 i) else None) (if memA V6 m then opt_str (last_gw t V6 i) else None).
Definition still (t : stopo) (m : list af) (i : sintf) : list af :=
  filter (fun f => match last_gw t f i with Some _ => false | None => true end) m.

Definition unnum (t : stopo) (f : af) (g : ngb) : bool :=
  negb (is_host t (n_node g)) && match aget f (n_addr g) with Some (ABool b) => b | _ => false end.

Lemma af_eqb_eq : forall a b, af_eqb a b = true <-> a = b.
Proof. intros [|] [|]; simpl; split; congruence. Qed.

Lemma memA_In : forall f l, memA f l = true <-> In f l.
Proof.
  intros f l. unfold memA. rewrite existsb_exists. split.
  - intros [g [H E]]. apply af_eqb_eq in E. now subst.
  - intros H. exists f. split; auto. now apply af_eqb_eq.
Qed.

Lemma intf_gw_spec : forall i, intf_gw i = (conf_gw i, set_gw i (conf_gw i)).
Proof.
  intros i. unfold intf_gw, conf_gw.
  assert (E : set_gw i (i_gw i) = i) by (destruct i; reflexivity).
  destruct (gw_true (i_gw i)); [now rewrite E|].
  assert (K : ngb_gw (i_ngb i) = match find has_gw (i_ngb i) with Some g => n_gw g | None => GwNone end).
  { induction (i_ngb i) as [|g l IH]; simpl; auto. unfold has_gw at 1. destruct (n_gw g) eqn:G; simpl; auto. }
  rewrite K. destruct (find has_gw (i_ngb i)) as [g|] eqn:F.
  - apply find_some in F. destruct F as [_ F]. unfold has_gw in F. destruct (n_gw g); auto. discriminate.
  - now rewrite E.
Qed.

(* ---- gateway of last resort on one interface ---- *)

Lemma last_resort_ngb_spec : forall t f l un,
  last_resort_ngb t f l un =
    (match find (usable t f) l with Some g => str_of (aget f (n_addr g)) | None => None end,
     snd (last_resort_ngb t f l un)).
Proof.
  intros t f. induction l as [|g l IH]; intros un; simpl; auto. unfold usable at 1.
  destruct (is_host t (n_node g)) eqn:H; simpl; auto.
  destruct (aget f (n_addr g)) as [[s|b]|] eqn:E; simpl; auto.
  destruct (n_dhcp f g) eqn:D; simpl; auto. now rewrite E.
Qed.

Lemma last_resort_ngb_un : forall t f l un, find (usable t f) l = None ->
  snd (last_resort_ngb t f l un) = un || existsb (unnum t f) l.
Proof.
  intros t f. induction l as [|g l IH]; intros un H; simpl; [now rewrite orb_false_r|].
  simpl in H. unfold usable at 1 in H. unfold unnum at 1.
  destruct (is_host t (n_node g)) eqn:Ho; simpl in *; auto.
  destruct (aget f (n_addr g)) as [[s|b]|] eqn:E; simpl in *; auto.
  - destruct (n_dhcp f g); simpl in *; [auto|discriminate].
  - rewrite IH by auto. now rewrite orb_assoc.
Qed.

Lemma last_resort_ext : forall t i i' todo st, i_ngb i = i_ngb i' -> last_resort t i todo st = last_resort t i' todo st.
Proof.
  intros t i i'. induction todo as [|f todo IH]; intros st E; simpl; auto. destruct st as [[d m] un]. rewrite E.
  destruct (last_resort_ngb t f (i_ngb i') un) as [[s|] un']; auto.
Qed.

Lemma filter_af_comm : forall (p q : af -> bool) l, filter p (filter q l) = filter q (filter p l).
Proof.
  intros p q l. rewrite !filter_filter. apply filter_same. intros x _. apply andb_comm.
Qed.

Lemma last_resort_gen : forall t i todo d m un,
  exists un', last_resort t i todo (d, m, un) =
    (mk_af (if memA V4 todo then or_else (opt_str (last_gw t V4 i)) (a4 d) else a4 d)
           (if memA V6 todo then or_else (opt_str (last_gw t V6 i)) (a6 d) else a6 d),
     filter (fun f => negb (memA f todo && match last_gw t f i with Some _ => true | None => false end)) m, un').
Proof.
  intros t i. induction todo as [|f todo IH]; intros d m un; simpl.
  - exists un. f_equal. f_equal; [destruct d; auto|]. symmetry. apply filter_true_id. intros x. reflexivity.
  - rewrite last_resort_ngb_spec. fold (last_gw t f i).
    destruct (last_gw t f i) as [s|] eqn:L; simpl.
    + match goal with |- context [last_resort t i todo (?d', ?m', ?u')] => destruct (IH d' m' u') as [un' E] end.
      exists un'. rewrite E. f_equal. f_equal.
      * destruct f; simpl; rewrite L; simpl;
          [destruct (memA V4 todo); simpl; reflexivity|destruct (memA V6 todo); simpl; reflexivity].
      * rewrite filter_filter. apply filter_same. intros g _. unfold memA. simpl. fold (memA g todo).
        destruct f, g; simpl; try reflexivity; rewrite L; reflexivity.
    + match goal with |- context [last_resort t i todo (?d', ?m', ?u')] => destruct (IH d' m' u') as [un' E] end.
      exists un'. rewrite E. f_equal. f_equal.
      * destruct f; simpl; rewrite L; simpl;
          [destruct (memA V4 todo); reflexivity|destruct (memA V6 todo); reflexivity].
      * apply filter_same. intros g _. unfold memA at 2. simpl. fold (memA g todo).
        destruct f, g; simpl; try reflexivity; rewrite L; rewrite andb_false_r; reflexivity.
Qed.

Lemma last_resort_spec : forall t i m,
  exists un, last_resort t i m (no_af, m, false) = (last_addr t m i, still t m i, un).
Proof.
  intros t i m. destruct (last_resort_gen t i m no_af m false) as [un E]. exists un. rewrite E.
  f_equal. f_equal.
  - unfold last_addr. simpl. f_equal.
    + destruct (memA V4 m); auto. destruct (last_gw t V4 i); reflexivity.
    + destruct (memA V6 m); auto. destruct (last_gw t V6 i); reflexivity.
  - unfold still. apply filter_same. intros f Hf. apply memA_In in Hf. rewrite Hf. simpl.
    destruct (last_gw t f i); reflexivity.
Qed.

(* the flag when the interface has no gateway of last resort *)
Lemma last_resort_un : forall t i todo d m un,
  (forall f, In f todo -> last_gw t f i = None) ->
  last_resort t i todo (d, m, un) = (d, m, un || existsb (fun f => existsb (unnum t f) (i_ngb i)) todo).
Proof.
  intros t i. induction todo as [|f todo IH]; intros d m un H; simpl; [now rewrite orb_false_r|].
  assert (L : last_gw t f i = None) by (apply H; left; auto).
  assert (F : find (usable t f) (i_ngb i) = None).
  { unfold last_gw in L. destruct (find (usable t f) (i_ngb i)) as [g|] eqn:E; auto.
    apply find_some in E. destruct E as [_ E]. unfold usable in E.
    destruct (aget f (n_addr g)) as [[s|b]|]; simpl in *; try discriminate; rewrite andb_false_r in E; discriminate. }
  rewrite last_resort_ngb_spec, F. rewrite last_resort_ngb_un by auto.
  rewrite IH by (intros g Hg; apply H; right; auto). now rewrite orb_assoc.
Qed.

Section Ip.
Variable ipif : string -> option (string * string).

(* ---- the first call ---- *)

Definition conf_hops (v : option string) (xv : option (option string)) (ifs : list sintf) : list nhe :=
  flat_map (fun i => hop_of ipif i xv (conf_addr i)) (filter (in_vrf v) ifs).
Definition cached (v : option string) (ifs : list sintf) : list sintf :=
  map (fun i => if in_vrf v i then set_gw i (conf_gw i) else i) ifs.
Definition conf_ok (i : sintf) : Prop := conf_gw i <> GwFalse /\ good_addr ipif (conf_addr i).

Lemma has_host_conf : forall d, good_addr ipif d -> has_af (host_af ipif d) = is_str (a4 d) || is_str (a6 d).
Proof.
  intros d [G4 G6]. unfold has_af, host_af. simpl.
  destruct (a4 d) as [[s|b]|]; simpl in *; [destruct (ipif s) as [[h n]|]; [reflexivity|congruence]| |];
    (destruct (a6 d) as [[s'|b']|]; simpl in *; [destruct (ipif s') as [[h' n']|]; [reflexivity|congruence]| |]; reflexivity).
Qed.

Lemma gw_first : forall t v xv ifs acc un l a u, gw_hops ipif t v xv None ifs acc un = Some (l, a, u) ->
  l = cached v ifs /\ a = fold_left append_new (conf_hops v xv ifs) acc /\ u = un
  /\ (forall i, In i ifs -> in_vrf v i = true -> conf_ok i).
Proof.
  intros t v xv. induction ifs as [|i ifs IH]; intros acc un l a u H; cbn [gw_hops] in H.
  - inversion H; subst. repeat split; auto; destruct H0.
  - rewrite opt_eqb_in_vrf in H. unfold cached, conf_hops. simpl. destruct (in_vrf v i) eqn:V; cbn [negb] in H.
    + rewrite intf_gw_spec in H.
      assert (K : exists b d,
        (conf_gw i = GwNone \/ exists o, conf_gw i = GwBox d o) /\ d = conf_addr i /\
        extract_af_info ipif false d = Some b /\
        match gw_hops ipif t v xv None ifs
                (match create_nexthop_data xv b (i_name i) with Some h => append_new acc h | None => acc end) un with
        | Some (l', a', u') => Some (set_gw i (conf_gw i) :: l', a', u')
        | None => None
        end = Some (l, a, u)).
      { unfold conf_addr. destruct (conf_gw i) as [| |d o] eqn:C; cbn [gw_true] in H.
        - destruct (extract_af_info ipif false no_af) as [b|] eqn:X; [|discriminate].
          exists b, no_af. repeat split; auto.
        - discriminate.
        - destruct (o || has_af d);
            (destruct (extract_af_info ipif false d) as [b|] eqn:X; [|discriminate]);
            exists b, d; repeat split; eauto. }
      destruct K as [b [d [KC [KD [KX KH]]]]].
      rewrite (add_hop ipif xv d b i acc KX) in KH.
      destruct (gw_hops ipif t v xv None ifs (fold_left append_new (hop_of ipif i xv d) acc) un) as [[[l' a'] u']|] eqn:E;
        [|discriminate].
      inversion KH; subst. apply IH in E. destruct E as [-> [-> [-> E]]].
      split; [reflexivity|]. split; [simpl; now rewrite fold_left_app|]. split; [reflexivity|].
      intros i' [<-|Hi] Vi; auto. split.
      * destruct KC as [KC|[o KC]]; rewrite KC; discriminate.
      * eapply extract_some; eauto.
    + destruct (gw_hops ipif t v xv None ifs acc un) as [[[l' a'] u']|] eqn:E; [|discriminate].
      inversion H; subst. apply IH in E. destruct E as [-> [-> [-> E]]].
      split; [reflexivity|]. split; [reflexivity|]. split; [reflexivity|].
      intros i' [<-|Hi] Vi; auto. congruence.
Qed.

Lemma gw_first_ok : forall t v xv ifs acc un,
  (forall i, In i ifs -> in_vrf v i = true -> conf_ok i) ->
  gw_hops ipif t v xv None ifs acc un = Some (cached v ifs, fold_left append_new (conf_hops v xv ifs) acc, un).
Proof.
  intros t v xv ifs acc un H.
  assert (K : exists r, gw_hops ipif t v xv None ifs acc un = Some r).
  { revert acc H. induction ifs as [|i ifs IH]; intros acc H; cbn [gw_hops]; eauto.
    rewrite opt_eqb_in_vrf.
    assert (H' : forall j, In j ifs -> in_vrf v j = true -> conf_ok j) by (intros j Hj; apply H; right; auto).
    destruct (in_vrf v i) eqn:V; cbn [negb].
    - rewrite intf_gw_spec. destruct (H i (or_introl eq_refl) V) as [NF G]. unfold conf_addr in G.
      destruct (conf_gw i) as [| |d o] eqn:C; cbn [gw_true]; [| congruence |].
      + destruct (extract_good ipif false no_af) as [b X]; [split; exact I|]. rewrite X.
        destruct (IH (match create_nexthop_data xv b (i_name i) with Some h => append_new acc h | None => acc end) H') as [[[l a] u] E].
        rewrite E. eauto.
      + destruct (extract_good ipif false d G) as [b X]. rewrite X.
        destruct (IH (match create_nexthop_data xv b (i_name i) with Some h => append_new acc h | None => acc end) H') as [[[l a] u] E].
        destruct (o || has_af d); rewrite E; eauto.
    - destruct (IH acc H') as [[[l a] u] E]. rewrite E. eauto. }
  destruct K as [[[l a] u] K]. rewrite K. apply gw_first in K. destruct K as [-> [-> [-> _]]]. reflexivity.
Qed.

(* ---- the gateway-of-last-resort call ---- *)

Section Last.
Variable t : stopo.
Variable v : option string.

Fixpoint last_hops (xv : option (option string)) (m : list af) (ifs : list sintf) : list nhe :=
  match ifs with
  | [] => []
  | i :: r =>
      if in_vrf v i then
        if gw_true (conf_gw i) then hop_of ipif i xv (conf_addr i) ++ last_hops xv m r
        else hop_of ipif i xv (last_addr t m i) ++ last_hops xv (still t m i) r
      else last_hops xv m r
  end.
Fixpoint last_ifs (m : list af) (ifs : list sintf) : list sintf :=
  match ifs with
  | [] => []
  | i :: r =>
      if in_vrf v i then
        if gw_true (conf_gw i) then set_gw i (conf_gw i) :: last_ifs m r
        else set_gw i (if has_af (last_addr t m i) then GwBox (last_addr t m i) false else conf_gw i)
             :: last_ifs (still t m i) r
      else i :: last_ifs m r
  end.
Fixpoint last_ok (m : list af) (ifs : list sintf) : Prop :=
  match ifs with
  | [] => True
  | i :: r =>
      if in_vrf v i then
        if gw_true (conf_gw i) then good_addr ipif (conf_addr i) /\ last_ok m r
        else good_addr ipif (last_addr t m i) /\ last_ok (still t m i) r
      else last_ok m r
  end.

Lemma last_addr_none : forall m i, has_af (last_addr t m i) = false -> last_addr t m i = no_af /\ still t m i = m.
Proof.
  intros m i H. unfold last_addr, has_af in *. simpl in H.
  assert (E : last_addr t m i = no_af).
  { unfold last_addr, no_af.
    destruct (memA V4 m); [destruct (last_gw t V4 i)|]; simpl in *; try discriminate;
      (destruct (memA V6 m); [destruct (last_gw t V6 i)|]; simpl in *; try discriminate; reflexivity). }
  split; [exact E|]. unfold still. rewrite (filter_same _ _ (fun _ => true)).
  - apply filter_true_id. reflexivity.
  - intros f Hf. apply memA_In in Hf. unfold last_addr, no_af in E. inversion E as [[E4 E6]].
    destruct f; rewrite Hf in *; [destruct (last_gw t V4 i)|destruct (last_gw t V6 i)]; simpl in *; congruence.
Qed.

Lemma gw_last : forall xv ifs m acc un l a u, gw_hops ipif t v xv (Some m) ifs acc un = Some (l, a, u) ->
  l = last_ifs m ifs /\ a = fold_left append_new (last_hops xv m ifs) acc /\ last_ok m ifs.
Proof.
  intros xv. induction ifs as [|i ifs IH]; intros m acc un l a u H; cbn [gw_hops] in H.
  - inversion H; subst. repeat split; auto.
  - rewrite opt_eqb_in_vrf in H. simpl. destruct (in_vrf v i) eqn:V; cbn [negb] in H.
    + rewrite intf_gw_spec in H. destruct (gw_true (conf_gw i)) eqn:T.
      * unfold conf_addr. destruct (conf_gw i) as [| |d o] eqn:C; try discriminate.
        destruct (extract_af_info ipif false d) as [b|] eqn:X; [|discriminate].
        rewrite (add_hop ipif xv d b i acc X) in H.
        destruct (gw_hops ipif t v xv (Some m) ifs (fold_left append_new (hop_of ipif i xv d) acc) un) as [[[l' a'] u']|] eqn:E;
          [|discriminate].
        inversion H; subst. apply IH in E. destruct E as [-> [-> E]].
        split; [reflexivity|]. split; [now rewrite fold_left_app|]. split; auto. eapply extract_some; eauto.
      * rewrite (last_resort_ext t (set_gw i (conf_gw i)) i m (no_af, m, false) eq_refl) in H.
        destruct (last_resort_spec t i m) as [un0 LR]. rewrite LR in H.
        destruct (has_af (last_addr t m i)) eqn:HA.
        { destruct (extract_af_info ipif false (last_addr t m i)) as [b|] eqn:X; [|discriminate].
          rewrite (add_hop ipif xv _ b i acc X) in H.
          match type of H with match ?g with _ => _ end = _ => destruct g as [[[l' a'] u']|] eqn:E; [|discriminate] end.
          inversion H; subst. apply IH in E. destruct E as [-> [-> E]].
          split; [reflexivity|]. split; [now rewrite fold_left_app|]. split; auto. eapply extract_some; eauto. }
        { match type of H with match ?g with _ => _ end = _ => destruct g as [[[l' a'] u']|] eqn:E; [|discriminate] end.
          inversion H; subst. apply IH in E. destruct E as [-> [-> E]].
          destruct (last_addr_none m i HA) as [LA ST]. split; [reflexivity|].
          split; [rewrite LA; reflexivity|]. split; auto. rewrite LA. split; exact I. }
    + destruct (gw_hops ipif t v xv (Some m) ifs acc un) as [[[l' a'] u']|] eqn:E; [|discriminate].
      inversion H; subst. apply IH in E. destruct E as [-> [-> E]]. repeat split; auto.
Qed.

Lemma gw_last_ok : forall xv ifs m acc un, last_ok m ifs ->
  exists u, gw_hops ipif t v xv (Some m) ifs acc un =
            Some (last_ifs m ifs, fold_left append_new (last_hops xv m ifs) acc, u).
Proof.
  intros xv ifs m acc un H.
  assert (K : exists r, gw_hops ipif t v xv (Some m) ifs acc un = Some r).
  { revert m acc un H. induction ifs as [|i ifs IH]; intros m acc un H; cbn [gw_hops]; eauto.
    rewrite opt_eqb_in_vrf. simpl in H. destruct (in_vrf v i) eqn:V; cbn [negb].
    - rewrite intf_gw_spec. destruct (gw_true (conf_gw i)) eqn:T.
      + destruct H as [G H]. unfold conf_addr in G. destruct (conf_gw i) as [| |d o] eqn:C; try discriminate.
        destruct (extract_good ipif false d G) as [b X]. rewrite X.
        destruct (IH m (match create_nexthop_data xv b (i_name i) with Some h => append_new acc h | None => acc end) un H)
          as [[[l a] u] E]. rewrite E. eauto.
      + rewrite (last_resort_ext t (set_gw i (conf_gw i)) i m (no_af, m, false) eq_refl).
        destruct (last_resort_spec t i m) as [un0 LR]. rewrite LR. destruct H as [G H].
        destruct (has_af (last_addr t m i)) eqn:HA.
        * destruct (extract_good ipif false _ G) as [b X]. rewrite X.
          destruct (IH (still t m i) (match create_nexthop_data xv b (i_name i) with Some h => append_new acc h | None => acc end) (un || un0) H)
            as [[[l a] u] E]. rewrite E. eauto.
        * destruct (IH (still t m i) acc (un || un0) H) as [[[l a] u] E]. rewrite E. eauto.
    - destruct (IH m acc un H) as [[[l a] u] E]. rewrite E. eauto. }
  destruct K as [[[l a] u] K]. exists u. rewrite K. apply gw_last in K. destruct K as [-> [-> _]]. reflexivity.
Qed.

(* an interface without a configured gateway whose neighbors include an unnumbered router *)
Definition warn_intf (m : list af) (i : sintf) : bool :=
  in_vrf v i && negb (gw_true (conf_gw i)) && existsb (fun f => existsb (unnum t f) (i_ngb i)) m.

Lemma last_addr_strings : forall m i, good_addr ipif (last_addr t m i) ->
  has_af (host_af ipif (last_addr t m i)) = has_af (last_addr t m i).
Proof.
  intros m i G. rewrite has_host_conf by auto. unfold last_addr, has_af. simpl.
  destruct (memA V4 m); [destruct (last_gw t V4 i)|]; simpl; auto;
    (destruct (memA V6 m); [destruct (last_gw t V6 i)|]; simpl; auto).
Qed.

Lemma hop_nil : forall i xv d, hop_of ipif i xv d = [] <-> has_af (host_af ipif d) = false.
Proof. intros i xv d. unfold hop_of. destruct (has_af (host_af ipif d)); split; congruence. Qed.

Lemma last_nil_step : forall xv m i, good_addr ipif (last_addr t m i) -> hop_of ipif i xv (last_addr t m i) = [] ->
  last_addr t m i = no_af /\ still t m i = m.
Proof. intros xv m i G H. apply hop_nil in H. rewrite last_addr_strings in H by auto. now apply last_addr_none. Qed.

Lemma gw_last_un : forall xv ifs m acc un l a u, gw_hops ipif t v xv (Some m) ifs acc un = Some (l, a, u) ->
  last_hops xv m ifs = [] -> u = un || existsb (warn_intf m) ifs.
Proof.
  intros xv. induction ifs as [|i ifs IH]; intros m acc un l a u H N.
  - simpl in H. inversion H; subst. simpl. now rewrite orb_false_r.
  - assert (OK := gw_last _ _ _ _ _ _ _ _ H). destruct OK as [_ [_ OK]].
    cbn [gw_hops] in H. rewrite opt_eqb_in_vrf in H. simpl in N, OK. simpl existsb. unfold warn_intf at 1.
    destruct (in_vrf v i) eqn:V; cbn [negb] in H; simpl.
    + rewrite intf_gw_spec in H. destruct (gw_true (conf_gw i)) eqn:T; simpl.
      * destruct (conf_gw i) as [| |d o] eqn:C; try discriminate.
        destruct (extract_af_info ipif false d) as [b|] eqn:X; [|discriminate].
        apply app_eq_nil in N. destruct N as [_ N].
        match type of H with match ?g with _ => _ end = _ => destruct g as [[[l' a'] u']|] eqn:E; [|discriminate] end.
        inversion H; subst. eapply IH; eauto.
      * rewrite (last_resort_ext t (set_gw i (conf_gw i)) i m (no_af, m, false) eq_refl) in H.
        apply app_eq_nil in N. destruct N as [N0 N]. destruct OK as [G OK].
        destruct (last_nil_step xv m i G N0) as [LA ST].
        assert (LN : forall f, In f m -> last_gw t f i = None).
        { intros f Hf. rewrite <- ST in Hf. unfold still in Hf. apply filter_In in Hf. destruct Hf as [_ Hf].
          destruct (last_gw t f i); congruence. }
        rewrite (last_resort_un t i m no_af m false LN) in H. simpl in H. rewrite ST in N.
        match type of H with match ?g with _ => _ end = _ => destruct g as [[[l' a'] u']|] eqn:E; [|discriminate] end.
        inversion H; subst. apply IH in E; auto. rewrite E. now rewrite orb_assoc.
    + match type of H with match ?g with _ => _ end = _ => destruct g as [[[l' a'] u']|] eqn:E; [|discriminate] end.
      inversion H; subst. eapply IH; eauto.
Qed.

(* ---- the cache does not change the result ---- *)

Lemma conf_set : forall i, conf_gw (set_gw i (conf_gw i)) = conf_gw i.
Proof.
  intros i. unfold conf_gw at 1. simpl. destruct (gw_true (conf_gw i)) eqn:T; auto.
  unfold conf_gw in *. destruct (gw_true (i_gw i)) eqn:T0; [congruence|].
  destruct (find has_gw (i_ngb i)); auto.
Qed.

Lemma conf_set_box : forall i d, has_af d = true -> conf_gw (set_gw i (GwBox d false)) = GwBox d false.
Proof. intros i d H. unfold conf_gw. simpl. now rewrite H. Qed.

Lemma set_set : forall i g h, set_gw (set_gw i g) h = set_gw i h.
Proof. reflexivity. Qed.

Lemma in_vrf_set : forall w i g, in_vrf w (set_gw i g) = in_vrf w i.
Proof. reflexivity. Qed.

Lemma conf_falsy : forall i, gw_true (conf_gw i) = false -> conf_addr i = no_af.
Proof.
  intros i H. unfold conf_addr. destruct (conf_gw i) as [| |d o]; auto. simpl in H.
  apply orb_false_iff in H. destruct H as [_ H]. unfold has_af in H. destruct d as [[x|] [y|]]; simpl in H; try discriminate.
  reflexivity.
Qed.

Lemma last_ext : forall m i g, last_addr t m (set_gw i g) = last_addr t m i /\ still t m (set_gw i g) = still t m i.
Proof. split; reflexivity. Qed.

Lemma last_hops_cached : forall xv ifs m, last_hops xv m (cached v ifs) = last_hops xv m ifs.
Proof.
  intros xv. induction ifs as [|i ifs IH]; intros m; simpl; auto.
  destruct (in_vrf v i) eqn:V.
  - rewrite in_vrf_set, V, conf_set. unfold conf_addr. rewrite conf_set. fold (conf_addr i).
    destruct (last_ext m i (conf_gw i)) as [E1 E2]. rewrite E1, E2, !IH. reflexivity.
  - rewrite V. apply IH.
Qed.

Lemma last_ifs_cached : forall ifs m, last_ifs m (cached v ifs) = last_ifs m ifs.
Proof.
  induction ifs as [|i ifs IH]; intros m; simpl; auto.
  destruct (in_vrf v i) eqn:V.
  - rewrite in_vrf_set, V, conf_set. destruct (last_ext m i (conf_gw i)) as [E1 E2]. rewrite E1, E2, !IH. reflexivity.
  - rewrite V. now rewrite IH.
Qed.

Lemma last_ok_cached : forall ifs m, last_ok m (cached v ifs) <-> last_ok m ifs.
Proof.
  induction ifs as [|i ifs IH]; intros m; simpl; [tauto|].
  destruct (in_vrf v i) eqn:V.
  - rewrite in_vrf_set, V, conf_set. unfold conf_addr. rewrite conf_set. fold (conf_addr i).
    destruct (last_ext m i (conf_gw i)) as [E1 E2]. rewrite E1, E2. destruct (gw_true (conf_gw i)); now rewrite IH.
  - rewrite V. apply IH.
Qed.

Lemma warn_cached : forall m ifs, existsb (warn_intf m) (cached v ifs) = existsb (warn_intf m) ifs.
Proof.
  intros m. induction ifs as [|i ifs IH]; simpl; auto. rewrite IH. f_equal. unfold warn_intf.
  destruct (in_vrf v i) eqn:V; [|now rewrite V]. rewrite in_vrf_set, V, conf_set. reflexivity.
Qed.

Lemma conf_hops_cached : forall xv ifs, conf_hops v xv (cached v ifs) = conf_hops v xv ifs.
Proof.
  intros xv. unfold conf_hops. induction ifs as [|i ifs IH]; simpl; auto.
  destruct (in_vrf v i) eqn:V; simpl; [rewrite in_vrf_set|]; rewrite V; auto.
  simpl. rewrite IH. unfold conf_addr. rewrite conf_set. reflexivity.
Qed.

Lemma conf_ok_set : forall i, conf_ok i -> conf_ok (set_gw i (conf_gw i)).
Proof. intros i [A B]. split; [now rewrite conf_set|]. unfold conf_addr. rewrite conf_set. exact B. Qed.

Lemma conf_ok_cached : forall ifs, (forall i, In i ifs -> in_vrf v i = true -> conf_ok i) ->
  forall i, In i (cached v ifs) -> in_vrf v i = true -> conf_ok i.
Proof.
  intros ifs H i Hi V. unfold cached in Hi. apply in_map_iff in Hi. destruct Hi as [j [E Hj]].
  destruct (in_vrf v j) eqn:Vj; subst; [|congruence]. apply conf_ok_set. auto.
Qed.

Lemma conf_hops_last : forall xv ifs m, conf_hops v xv (last_ifs m ifs) = last_hops xv m ifs.
Proof.
  intros xv. unfold conf_hops. induction ifs as [|i ifs IH]; intros m; simpl; auto.
  destruct (in_vrf v i) eqn:V; [|simpl; rewrite V; auto].
  destruct (gw_true (conf_gw i)) eqn:T; simpl; rewrite in_vrf_set, V; simpl; rewrite IH; f_equal.
  - unfold conf_addr. rewrite conf_set. reflexivity.
  - destruct (has_af (last_addr t m i)) eqn:HA.
    + unfold conf_addr. rewrite conf_set_box by auto. reflexivity.
    + destruct (last_addr_none m i HA) as [LA _]. rewrite LA.
      unfold conf_addr. rewrite conf_set. fold (conf_addr i). rewrite conf_falsy by auto. reflexivity.
Qed.

Lemma conf_ok_last : forall ifs m, (forall i, In i ifs -> in_vrf v i = true -> conf_ok i) -> last_ok m ifs ->
  forall i, In i (last_ifs m ifs) -> in_vrf v i = true -> conf_ok i.
Proof.
  induction ifs as [|i ifs IH]; intros m H L j Hj V; simpl in Hj, L; [destruct Hj|].
  assert (H' : forall k, In k ifs -> in_vrf v k = true -> conf_ok k) by (intros k Hk; apply H; right; auto).
  destruct (in_vrf v i) eqn:Vi.
  - assert (Ci : conf_ok i) by (apply H; auto; left; auto).
    destruct (gw_true (conf_gw i)) eqn:T; destruct L as [L0 L].
    + destruct Hj as [<-|Hj]; [now apply conf_ok_set|]. eapply IH; eauto.
    + destruct Hj as [<-|Hj]; [|eapply IH; eauto].
      destruct (has_af (last_addr t m i)) eqn:HA; [|now apply conf_ok_set].
      split; [rewrite conf_set_box by auto; discriminate|].
      unfold conf_addr. rewrite conf_set_box by auto. exact L0.
  - destruct Hj as [<-|Hj]; [congruence|]. eapply IH; eauto.
Qed.

Lemma last_nil_cached : forall xv ifs m, last_ok m ifs -> last_hops xv m ifs = [] -> last_ifs m ifs = cached v ifs.
Proof.
  intros xv. induction ifs as [|i ifs IH]; intros m L N; simpl in *; auto.
  destruct (in_vrf v i) eqn:V.
  - destruct (gw_true (conf_gw i)) eqn:T; apply app_eq_nil in N; destruct N as [N0 N]; destruct L as [L0 L].
    + f_equal. apply IH; auto.
    + destruct (last_nil_step xv m i L0 N0) as [LA ST]. rewrite LA. rewrite ST in *. simpl. f_equal. apply IH; auto.
  - f_equal. apply IH; auto.
Qed.

Lemma conf_nil_xv : forall xv xv' ifs, conf_hops v xv ifs = [] -> conf_hops v xv' ifs = [].
Proof.
  intros xv xv' ifs. unfold conf_hops. induction (filter (in_vrf v) ifs) as [|i l IH]; simpl; auto.
  intros H. apply app_eq_nil in H. destruct H as [H0 H]. rewrite IH by auto.
  apply hop_nil in H0. assert (K : hop_of ipif i xv' (conf_addr i) = []) by (now apply hop_nil). now rewrite K.
Qed.

Lemma last_nil_xv : forall xv xv' ifs m, last_hops xv m ifs = [] -> last_hops xv' m ifs = [].
Proof.
  intros xv xv'. induction ifs as [|i ifs IH]; intros m H; simpl in *; auto.
  destruct (in_vrf v i); auto.
  destruct (gw_true (conf_gw i)); apply app_eq_nil in H; destruct H as [H0 H];
    rewrite IH by auto; apply hop_nil in H0.
  - assert (K : hop_of ipif i xv' (conf_addr i) = []) by (now apply hop_nil). now rewrite K.
  - assert (K : hop_of ipif i xv' (last_addr t m i) = []) by (now apply hop_nil). now rewrite K.
Qed.
End Last.

(* ---- the gateway next hops ---- *)

Definition gw_list (t : stopo) (m : list af) (v : option string) (xv : option (option string)) (ifs : list sintf) : list nhe :=
  match conf_hops v xv ifs with [] => last_hops t v xv m ifs | l => l end.
Definition gw_ifs (t : stopo) (m : list af) (v : option string) (ifs : list sintf) : list sintf :=
  match conf_hops v None ifs with [] => last_ifs t v m ifs | _ => cached v ifs end.
Definition gw_fine (t : stopo) (m : list af) (v : option string) (ifs : list sintf) : Prop :=
  (forall i, In i ifs -> in_vrf v i = true -> conf_ok i) /\
  (conf_hops v None ifs = [] -> last_ok t v m ifs).

Lemma gw_stable : forall t m v xv ifs, gw_fine t m v ifs ->
  gw_fine t m v (gw_ifs t m v ifs) /\ gw_list t m v xv (gw_ifs t m v ifs) = gw_list t m v xv ifs
  /\ (gw_list t m v xv ifs = [] ->
      existsb (warn_intf t v m) (gw_ifs t m v ifs) = existsb (warn_intf t v m) ifs).
Proof.
  intros t m v xv ifs [C L]. unfold gw_ifs, gw_list. destruct (conf_hops v None ifs) eqn:E.
  - specialize (L eq_refl). assert (EX := conf_nil_xv v None xv ifs E). rewrite EX.
    rewrite conf_hops_last. destruct (last_hops t v xv m ifs) eqn:LH.
    + assert (LI := last_nil_cached t v xv ifs m L LH). rewrite LI. rewrite last_hops_cached, LH.
      split; [|split; [reflexivity|intros _; apply warn_cached]].
      split; [apply conf_ok_cached; auto|]. intros _. now apply last_ok_cached.
    + split; [|split; [reflexivity|discriminate]]. split; [apply (conf_ok_last t v ifs m C L)|].
      rewrite conf_hops_last. intros K. rewrite (last_nil_xv t v None xv ifs m K) in LH. discriminate.
  - rewrite conf_hops_cached. destruct (conf_hops v xv ifs) eqn:EX.
    { rewrite (conf_nil_xv v xv None ifs EX) in E. discriminate. }
    split; [|split; [reflexivity|discriminate]]. split; [apply conf_ok_cached; auto|].
    rewrite conf_hops_cached, E. discriminate.
Qed.

(* another VRF *)
Lemma filter_last : forall t v w m ifs, v <> w -> filter (in_vrf w) (last_ifs t v m ifs) = filter (in_vrf w) ifs.
Proof.
  intros t v w m ifs N. revert m. induction ifs as [|i ifs IH]; intros m; simpl; auto.
  destruct (in_vrf v i) eqn:V.
  - assert (W : in_vrf w i = false).
    { unfold in_vrf in *. destruct (vrf_dec (i_vrf i) v); [|discriminate]. destruct (vrf_dec (i_vrf i) w); congruence. }
    destruct (gw_true (conf_gw i)); simpl; rewrite in_vrf_set, W; auto.
  - simpl. destruct (in_vrf w i); rewrite IH; auto.
Qed.

Lemma filter_cached : forall v w ifs, v <> w -> filter (in_vrf w) (cached v ifs) = filter (in_vrf w) ifs.
Proof.
  intros v w ifs N. induction ifs as [|i ifs IH]; simpl; auto.
  destruct (in_vrf v i) eqn:V.
  - assert (W : in_vrf w i = false).
    { unfold in_vrf in *. destruct (vrf_dec (i_vrf i) v); [|discriminate]. destruct (vrf_dec (i_vrf i) w); congruence. }
    rewrite in_vrf_set, W; auto.
  - destruct (in_vrf w i); rewrite IH; auto.
Qed.

Lemma gw_by_filter : forall t m v xv ifs ifs', filter (in_vrf v) ifs = filter (in_vrf v) ifs' ->
  gw_list t m v xv ifs = gw_list t m v xv ifs' /\ (gw_fine t m v ifs <-> gw_fine t m v ifs')
  /\ existsb (warn_intf t v m) ifs = existsb (warn_intf t v m) ifs'.
Proof.
  intros t m v xv ifs ifs' E.
  assert (LH : forall l k, last_hops t v xv k l = last_hops t v xv k (filter (in_vrf v) l)).
  { induction l as [|i l IH]; intros k; simpl; auto. destruct (in_vrf v i) eqn:V; simpl; [rewrite V|]; auto.
    now rewrite !IH. }
  assert (LO : forall l k, last_ok t v k l <-> last_ok t v k (filter (in_vrf v) l)).
  { induction l as [|i l IH]; intros k; simpl; [tauto|]. destruct (in_vrf v i) eqn:V; simpl; [rewrite V|]; auto.
    destruct (gw_true (conf_gw i)); now rewrite IH. }
  assert (CO : forall l, (forall i, In i l -> in_vrf v i = true -> conf_ok i) <->
                         (forall i, In i (filter (in_vrf v) l) -> conf_ok i)).
  { intros l. split; intros H i; [rewrite filter_In; intros [A B]; auto|intros A B; apply H; apply filter_In; auto]. }
  assert (WI : forall l, existsb (warn_intf t v m) l = existsb (warn_intf t v m) (filter (in_vrf v) l)).
  { induction l as [|i l IH]; simpl; auto. destruct (in_vrf v i) eqn:V; simpl; rewrite IH; auto.
    unfold warn_intf at 1. now rewrite V. }
  assert (CH : forall x, conf_hops v x ifs = conf_hops v x ifs') by (intros x; unfold conf_hops; now rewrite E).
  split; [|split].
  - unfold gw_list. rewrite CH, (LH ifs), (LH ifs'), E. reflexivity.
  - unfold gw_fine. rewrite (CO ifs), (CO ifs'), (LO ifs), (LO ifs'), E, CH. reflexivity.
  - rewrite (WI ifs), (WI ifs'), E. reflexivity.
Qed.

Theorem gw_cache : forall t m v w xv ifs, gw_fine t m v ifs ->
  (gw_fine t m w (gw_ifs t m v ifs) <-> gw_fine t m w ifs)
  /\ gw_list t m w xv (gw_ifs t m v ifs) = gw_list t m w xv ifs
  /\ (gw_list t m w xv ifs = [] ->
      existsb (warn_intf t w m) (gw_ifs t m v ifs) = existsb (warn_intf t w m) ifs).
Proof.
  intros t m v w xv ifs G. destruct (vrf_dec v w) as [<-|N].
  - destruct (gw_stable t m v xv ifs G) as [A [B C]]. tauto.
  - assert (E : filter (in_vrf w) (gw_ifs t m v ifs) = filter (in_vrf w) ifs).
    { unfold gw_ifs. destruct (conf_hops v None ifs); [now apply filter_last|now apply filter_cached]. }
    destruct (gw_by_filter t m w xv _ _ E) as [A [B C]]. auto.
Qed.

(* resolve_nexthop for a gateway next hop *)
Lemma resolve_gateway_some : forall inside t nd r x ifs res, truthy_name (x_node x) = None -> x_gw x = true ->
  resolve_nexthop ipif inside t nd r x ifs = Some res ->
  gw_fine t (s_af nd) (nh_vrf r x) ifs /\
  res = (match gw_list t (s_af nd) (nh_vrf r x) (x_vrf x) ifs with
         | [] => x
         | l => merge_nh (extract_nh_from_list (uniq l)) x
         end,
         gw_ifs t (s_af nd) (nh_vrf r x) ifs,
         match gw_list t (s_af nd) (nh_vrf r x) (x_vrf x) ifs with
         | [] => existsb (warn_intf t (nh_vrf r x) (s_af nd)) ifs
         | _ => false
         end, []).
Proof.
  intros inside t nd r x ifs res HN HG H. unfold resolve_nexthop in H. rewrite HN, HG in H.
  unfold resolve_gateway_nexthop in H.
  set (v := nh_vrf r x) in *. set (m := s_af nd) in *. set (xv := x_vrf x) in *.
  destruct (gw_hops ipif t v xv None ifs [] false) as [[[l1 a1] u1]|] eqn:E1; [|discriminate].
  apply gw_first in E1. destruct E1 as [-> [-> [-> C]]]. rewrite fold_append_nil in H.
  unfold gw_list, gw_ifs, gw_fine.
  destruct (conf_hops v xv ifs) as [|h hs] eqn:CH.
  - simpl in H. assert (CN := conf_nil_xv v xv None ifs CH). rewrite CN.
    destruct (gw_hops ipif t v xv (Some m) (cached v ifs) [] false) as [[[l2 a2] u2]|] eqn:E2; [|discriminate].
    assert (E2' := E2). apply gw_last in E2. destruct E2 as [-> [-> L]].
    rewrite last_hops_cached, fold_append_nil, last_ifs_cached in H. apply (proj1 (last_ok_cached t v ifs m)) in L.
    split; [split; auto|].
    destruct (last_hops t v xv m ifs) as [|k ks] eqn:LH.
    + simpl in H. inversion H; subst. f_equal. f_equal.
      assert (U := gw_last_un t v xv (cached v ifs) m [] false _ _ _ E2').
      rewrite last_hops_cached in U. specialize (U LH). rewrite warn_cached in U. simpl in U. exact U.
    + simpl in H. inversion H; subst. reflexivity.
  - assert (CN : conf_hops v None ifs <> []).
    { intros K. rewrite (conf_nil_xv v None xv ifs K) in CH. discriminate. }
    simpl in H. inversion H; subst. split; [split; [auto|contradiction]|].
    destruct (conf_hops v None ifs); [contradiction|]. reflexivity.
Qed.

Lemma resolve_gateway_ok : forall inside t nd r x ifs, truthy_name (x_node x) = None -> x_gw x = true ->
  gw_fine t (s_af nd) (nh_vrf r x) ifs -> exists res, resolve_nexthop ipif inside t nd r x ifs = Some res.
Proof.
  intros inside t nd r x ifs HN HG [C L]. unfold resolve_nexthop. rewrite HN, HG. unfold resolve_gateway_nexthop.
  set (v := nh_vrf r x) in *. set (m := s_af nd) in *. set (xv := x_vrf x) in *.
  rewrite (gw_first_ok t v xv ifs [] false C), fold_append_nil.
  destruct (conf_hops v xv ifs) as [|h hs] eqn:CH; simpl; eauto.
  assert (LO : last_ok t v m (cached v ifs)) by (apply last_ok_cached; apply L; apply (conf_nil_xv v xv None ifs CH)).
  destruct (gw_last_ok t v xv (cached v ifs) m [] false LO) as [u E]. rewrite E.
  destruct (fold_left append_new (last_hops t v xv m (cached v ifs)) []); eauto.
Qed.
End Ip.
