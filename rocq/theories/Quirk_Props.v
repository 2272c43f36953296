(* Properties of device quirks. *)
From Coq Require Import String Ascii ZArith Lia Bool List.
From Verif Require Import Base Box_Model Vrf_Model Text_Model Quirk_Model Vrf_Props Text_Props Defs_Props Evs_Props.
Import ListNotations.
Local Open Scope string_scope.
Local Open Scope list_scope.
Local Open Scope Z_scope.

(* ------------------------------------------------------------------ *)
(* C219: Junos units                                                    *)

(* a name with dots: the text before the first dot and the text up to the next dot *)
Definition named_unit (n b u : string) : Prop :=
  no_char "." b /\ no_char "." u /\ (n = b ++ "." ++ u \/ exists r, n = b ++ "." ++ u ++ "." ++ r)%string.

Lemma has_dot_false : forall s, has_dot s = false <-> no_char "." s.
Proof.
  intros s. unfold has_dot. rewrite <- (split1_None "." s). destruct (split1 "." s) as [x|]; split; intros H; try discriminate H; reflexivity.
Qed.

Lemma unit_split : forall n b u r, split "." n = b :: u :: r -> named_unit n b u.
Proof.
  intros n b u r H. apply split_cons_inv in H. destruct H as [t [E [N T]]]. destruct r as [|x r].
  - pose proof (split_single _ _ _ T) as Q. subst t. split; [exact N|]. split; [apply split_none; exact T|]. left. exact E.
  - apply split_cons_inv in T. destruct T as [t' [E' [N' T']]]. split; [exact N|]. split; [exact N'|]. right. exists t'. rewrite E, E'. reflexivity.
Qed.

Lemma dot_split : forall n, has_dot n = true -> exists b u r, split "." n = b :: u :: r.
Proof.
  intros n H. destruct (split "." n) as [|b [|u r]] eqn:S.
  - exfalso. exact (split_nonempty _ _ S).
  - pose proof (split_single _ _ _ S) as Q. subst b. apply split_none in S. apply has_dot_false in S. rewrite S in H. discriminate H.
  - exists b, u, r. reflexivity.
Qed.

Lemma zero_split : forall n, no_char "." n -> split "." (n ++ ".0") = [n; "0"].
Proof. intros n N. rewrite (split_head "." (n ++ ".0") n "0" N eq_refl). reflexivity. Qed.

Definition nid_after (vmod : bool) (vlans : dict Z) (i : jintf) : option (option Z) :=
  if vmod then match j_native i with None => j_nid i | Some v => Some (dget v vlans) end else j_nid i.

Lemma one_plain : forall vmod vlans i, has_dot (j_name i) = false ->
  junos_one vmod vlans i = JI (j_name i ++ ".0") (j_mtu i) (j_native i) (j_vlan i) (Some (j_name i)) (Some "0") (nid_after vmod vlans i)
    (match j_mtu i with Some m => Some (m + 14) | None => j_hmtu i end) (j_master i).
Proof.
  intros vmod vlans [n mtu nat vl b u nid h ms] H. cbn [j_name] in H. pose proof (proj1 (has_dot_false n) H) as N.
  unfold junos_one, nid_after. cbn [j_name j_mtu j_native j_vlan j_nid j_hmtu j_master]. rewrite H. cbv zeta.
  unfold unit_0_trick, set_junos_mtu. cbn [j_name j_mtu j_native j_vlan j_base j_unit j_nid j_hmtu j_master].
  destruct mtu as [m|]; cbn [j_name j_mtu j_native j_vlan j_base j_unit j_nid j_hmtu j_master]; unfold set_native_id;
    cbn [j_name j_mtu j_native j_vlan j_base j_unit j_nid j_hmtu j_master]; destruct vmod; destruct nat as [v|]; unfold split_unit;
    cbn [j_name j_mtu j_native j_vlan j_base j_unit j_nid j_hmtu j_master]; rewrite (zero_split _ N); reflexivity.
Qed.

Lemma one_dotted : forall vmod vlans i, has_dot (j_name i) = true -> exists b u, named_unit (j_name i) b u
  /\ junos_one vmod vlans i = JI (j_name i) (j_mtu i) (j_native i) (j_vlan i) (Some b) (Some u) (j_nid i) (j_hmtu i) (j_master i).
Proof.
  intros vmod vlans i H. destruct (dot_split _ H) as [b [u [r S]]]. exists b, u. split; [exact (unit_split _ _ _ _ S)|].
  unfold junos_one. rewrite H. unfold split_unit. rewrite S. reflexivity.
Qed.

Definition bases_of (vmod : bool) (vlans : dict Z) (l : list jintf) : list string := flat_map (vlan_base vmod) (map (junos_one vmod vlans) l).

Lemma master_none : forall kind i, junos_master kind [] i = i.
Proof.
  intros kind i. unfold junos_master. destruct (j_unit i) as [u|]; [|reflexivity]. destruct (j_base i) as [b|]; [|reflexivity].
  cbn [memS existsb]. rewrite andb_false_r. reflexivity.
Qed.

Lemma fix_map : forall vmod kind vlans l,
  fix_unit_0 vmod kind vlans l = map (fun i => junos_master kind (bases_of vmod vlans l) (junos_one vmod vlans i)) l.
Proof.
  intros vmod kind vlans l. unfold fix_unit_0. fold (bases_of vmod vlans l). rewrite <- (map_map (junos_one vmod vlans)).
  destruct (bases_of vmod vlans l) as [|b r]; [|reflexivity].
  rewrite <- (map_id (map (junos_one vmod vlans) l)) at 1. apply map_ext. intros a. symmetry. apply master_none.
Qed.

(* attributes that the second pass does not change *)
Lemma master_keeps : forall kind bases i, let o := junos_master kind bases i in
  j_name o = j_name i /\ j_mtu o = j_mtu i /\ j_native o = j_native i /\ j_vlan o = j_vlan i /\ j_base o = j_base i /\ j_unit o = j_unit i /\ j_nid o = j_nid i.
Proof.
  intros kind bases [n mtu nat vl b u nid h ms]. unfold junos_master, set_junos_mtu. cbn [j_name j_mtu j_native j_vlan j_base j_unit j_nid j_hmtu j_master].
  destruct u as [u|]; [|repeat split; reflexivity]. destruct b as [b|]; [|repeat split; reflexivity].
  destruct (String.eqb u "0" && memS b bases); [|repeat split; reflexivity]. cbv zeta.
  destruct (String.eqb kind "router"); [destruct mtu; repeat split; reflexivity|].
  destruct (String.eqb kind "l3-switch"); [|repeat split; reflexivity].
  destruct vl as [[md|]|]; [destruct (String.eqb md "route")| |]; destruct mtu; repeat split; reflexivity.
Qed.

Lemma Forall2_map_self : forall A B (R : A -> B -> Prop) (f : A -> B) l, (forall x, In x l -> R x (f x)) -> Forall2 R l (map f l).
Proof.
  induction l as [|x l IH]; intros H; constructor; [apply H; left; reflexivity|]. apply IH. intros y I. apply H. right. exact I.
Qed.

Theorem junos_units_exact : forall vmod kind vlans l,
  Forall2 (fun i o =>
    j_mtu o = j_mtu i /\ j_native o = j_native i /\ j_vlan o = j_vlan i
    /\ (no_char "." (j_name i) -> j_name o = (j_name i ++ ".0")%string /\ j_base o = Some (j_name i) /\ j_unit o = Some "0")
    /\ (~ no_char "." (j_name i) -> j_name o = j_name i /\ exists b u, named_unit (j_name i) b u /\ j_base o = Some b /\ j_unit o = Some u))
  l (fix_unit_0 vmod kind vlans l).
Proof.
  intros vmod kind vlans l. rewrite fix_map. apply Forall2_map_self. intros i I.
  destruct (master_keeps kind (bases_of vmod vlans l) (junos_one vmod vlans i)) as [E1 [E2 [E3 [E4 [E5 [E6 _]]]]]].
  rewrite E1, E2, E3, E4, E5, E6. destruct (has_dot (j_name i)) eqn:D.
  - destruct (one_dotted vmod vlans i D) as [b [u [N E]]]. rewrite E. cbn [j_name j_mtu j_native j_vlan j_base j_unit].
    do 3 (split; [reflexivity|]). split; [intros Q; apply has_dot_false in Q; rewrite Q in D; discriminate D|].
    intros _. split; [reflexivity|]. exists b, u. split; [exact N|]. split; reflexivity.
  - rewrite (one_plain vmod vlans i D). cbn [j_name j_mtu j_native j_vlan j_base j_unit].
    do 3 (split; [reflexivity|]). split; [intros _; repeat split; reflexivity|]. intros Q. exfalso. apply Q. apply has_dot_false. exact D.
Qed.

(* names stay different unless there already is a unit 0 next to the interface *)
Definition new_name (n : string) : string := if has_dot n then n else (n ++ ".0")%string.

Lemma new_names : forall vmod kind vlans l, map j_name (fix_unit_0 vmod kind vlans l) = map new_name (map j_name l).
Proof.
  intros vmod kind vlans l. rewrite fix_map, !map_map. apply map_ext. intros i.
  destruct (master_keeps kind (bases_of vmod vlans l) (junos_one vmod vlans i)) as [E1 _]. rewrite E1. unfold new_name.
  destruct (has_dot (j_name i)) eqn:D.
  - destruct (one_dotted vmod vlans i D) as [b [u [N E]]]. rewrite E. reflexivity.
  - rewrite (one_plain vmod vlans i D). reflexivity.
Qed.

Lemma zero_inj : forall a b, no_char "." a -> no_char "." b -> (a ++ ".0")%string = (b ++ ".0")%string -> a = b.
Proof.
  intros a b A B E. pose proof (zero_split a A) as S. rewrite E, (zero_split b B) in S. injection S as S. symmetry. exact S.
Qed.

Theorem junos_names_distinct : forall vmod kind vlans l, NoDup (map j_name l) ->
  (NoDup (map j_name (fix_unit_0 vmod kind vlans l))
   <-> forall n, In n (map j_name l) -> no_char "." n -> ~ In (n ++ ".0")%string (map j_name l)).
Proof.
  intros vmod kind vlans l ND. rewrite new_names. set (ns := map j_name l) in *. clearbody ns. split.
  - intros H n I N Z. assert (E : n = (n ++ ".0")%string).
    { eapply NoDup_map_inv_in; [exact H|exact I|exact Z|]. unfold new_name. rewrite (proj2 (has_dot_false n) N).
      destruct (has_dot (n ++ ".0")) eqn:D; [reflexivity|]. apply has_dot_false in D. exfalso. apply split_none in D. rewrite (zero_split _ N) in D. discriminate D. }
    pose proof (zero_split n N) as S. rewrite <- E in S. apply split_none in N. rewrite N in S. discriminate S.
  - intros H. apply NoDup_map_inj; [|exact ND]. intros a b A B E. unfold new_name in E.
    destruct (has_dot a) eqn:DA, (has_dot b) eqn:DB.
    + exact E.
    + exfalso. apply has_dot_false in DB. apply (H b B DB). rewrite <- E. exact A.
    + exfalso. apply has_dot_false in DA. apply (H a A DA). rewrite E. exact B.
    + apply has_dot_false in DA. apply has_dot_false in DB. exact (zero_inj _ _ DA DB E).
Qed.

(* unit 0 of an interface that has a VLAN on one of its units *)
Definition tagged_unit (vmod : bool) (outs : list jintf) (o : jintf) : Prop :=
  vmod = true /\ j_unit o = Some "0" /\ exists o' b, In o' outs /\ j_vlan o' <> None /\ j_base o' = Some b /\ j_base o = Some b.
Definition flexible (vmod : bool) (kind : string) (outs : list jintf) (o : jintf) : Prop :=
  tagged_unit vmod outs o /\ (kind = "router" \/ kind = "l3-switch" /\ (j_vlan o = None \/ j_vlan o = Some (Some "route"))).

Lemma bases_in : forall vmod kind vlans l b, In b (bases_of vmod vlans l)
  <-> vmod = true /\ exists o', In o' (fix_unit_0 vmod kind vlans l) /\ j_vlan o' <> None /\ j_base o' = Some b.
Proof.
  intros vmod kind vlans l b. rewrite fix_map. set (bs := bases_of vmod vlans l) at 2. clearbody bs.
  unfold bases_of. rewrite in_flat_map. unfold vlan_base. split.
  - intros [x [I J]]. destruct vmod; [|destruct J]. split; [reflexivity|]. apply in_map_iff in I. destruct I as [i [E I]].
    exists (junos_master kind bs (junos_one true vlans i)). split; [apply in_map_iff; exists i; split; [reflexivity|exact I]|].
    destruct (master_keeps kind bs (junos_one true vlans i)) as [_ [_ [_ [E4 [E5 _]]]]]. rewrite E4, E5, E.
    destruct (j_vlan x) as [v|]; [|destruct J]. destruct (j_base x) as [c|]; [|destruct J]. destruct J as [J|[]]. subst c. split; [discriminate|reflexivity].
  - intros [V [o' [I [NV B]]]]. subst vmod. apply in_map_iff in I. destruct I as [i [E I]]. subst o'.
    destruct (master_keeps kind bs (junos_one true vlans i)) as [_ [_ [_ [E4 [E5 _]]]]]. rewrite E4 in NV. rewrite E5 in B.
    exists (junos_one true vlans i). split; [apply in_map; exact I|]. destruct (j_vlan (junos_one true vlans i)) as [v|]; [|congruence].
    rewrite B. left. reflexivity.
Qed.

(* the second pass *)
Lemma master_get : forall kind bases i, let o := junos_master kind bases i in
  let hit := j_unit i = Some "0" /\ exists b, j_base i = Some b /\ In b bases in
  let flex := hit /\ (kind = "router" \/ kind = "l3-switch" /\ (j_vlan i = None \/ j_vlan i = Some (Some "route"))) in
  (hit -> j_master o = true) /\ (~ hit -> j_master o = j_master i)
  /\ (forall m, flex -> j_mtu i = Some m -> j_hmtu o = Some (m + 22))
  /\ (j_mtu i = None \/ ~ flex -> j_hmtu o = j_hmtu i).
Proof.
  intros kind bases [n mtu nat vl b u nid h ms]. cbv zeta. unfold junos_master, set_junos_mtu.
  cbn [j_name j_mtu j_native j_vlan j_base j_unit j_nid j_hmtu j_master].
  destruct u as [u|].
  2:{ split; [intros [Q _]; discriminate Q|]. split; [reflexivity|]. split; [intros m [[Q _] _]; discriminate Q|reflexivity]. }
  destruct b as [b|].
  2:{ split; [intros [_ [x [Q _]]]; discriminate Q|]. split; [reflexivity|]. split; [intros m [[_ [x [Q _]]] _]; discriminate Q|reflexivity]. }
  destruct (String.eqb_spec u "0") as [U|U]; cbn [andb].
  2:{ split; [intros [Q _]; congruence|]. split; [reflexivity|]. split; [intros m [[Q _] _]; congruence|reflexivity]. }
  destruct (memS b bases) eqn:M.
  2:{ apply memS_false in M. split; [intros [_ [x [Q I]]]; congruence|]. split; [reflexivity|]. split; [intros m [[_ [x [Q I]]] _]; congruence|reflexivity]. }
  apply memS_true in M. subst u.
  assert (HIT : Some "0" = Some "0" /\ exists b0, Some b = Some b0 /\ In b0 bases) by (split; [reflexivity|exists b; split; [reflexivity|exact M]]).
  destruct (String.eqb_spec kind "router") as [K|K].
  { destruct mtu as [m|]; cbn [j_hmtu j_master].
    - split; [reflexivity|]. split; [intros Q; contradiction (Q HIT)|]. split; [intros m' _ Q; injection Q as Q; subst m'; reflexivity|].
      intros [Q|Q]; [discriminate Q|]. exfalso. apply Q. split; [exact HIT|left; exact K].
    - split; [reflexivity|]. split; [intros Q; contradiction (Q HIT)|]. split; [intros m' _ Q; discriminate Q|reflexivity]. }
  destruct (String.eqb_spec kind "l3-switch") as [L|L].
  2:{ cbn [j_hmtu j_master]. split; [reflexivity|]. split; [intros Q; contradiction (Q HIT)|]. split; [|reflexivity].
      intros m [_ [Q|[Q _]]]; congruence. }
  assert (ON : vl = None \/ vl = Some (Some "route") -> forall o, o = match mtu with None => JI n mtu nat vl (Some b) (Some "0") nid h true
      | Some m => JI n mtu nat vl (Some b) (Some "0") nid (Some (m + 22)) true end ->
    ((Some "0" = Some "0" /\ exists b0, Some b = Some b0 /\ In b0 bases) -> j_master o = true) /\ (~ (Some "0" = Some "0" /\ exists b0, Some b = Some b0 /\ In b0 bases) -> j_master o = ms)
    /\ (forall m, ((Some "0" = Some "0" /\ exists b0, Some b = Some b0 /\ In b0 bases) /\ (kind = "router" \/ kind = "l3-switch" /\ (vl = None \/ vl = Some (Some "route")))) -> mtu = Some m -> j_hmtu o = Some (m + 22))
    /\ (mtu = None \/ ~ ((Some "0" = Some "0" /\ exists b0, Some b = Some b0 /\ In b0 bases) /\ (kind = "router" \/ kind = "l3-switch" /\ (vl = None \/ vl = Some (Some "route")))) -> j_hmtu o = h)).
  { intros V o E. subst o. destruct mtu as [m|]; cbn [j_hmtu j_master].
    - split; [reflexivity|]. split; [intros Q; contradiction (Q HIT)|]. split; [intros m' _ Q; injection Q as Q; subst m'; reflexivity|].
      intros [Q|Q]; [discriminate Q|]. exfalso. apply Q. split; [exact HIT|]. right. split; [exact L|exact V].
    - split; [reflexivity|]. split; [intros Q; contradiction (Q HIT)|]. split; [intros m' _ Q; discriminate Q|reflexivity]. }
  destruct vl as [[md|]|].
  - destruct (String.eqb_spec md "route") as [R|R].
    + subst md. apply ON; [right; reflexivity|]. destruct mtu; reflexivity.
    + cbn [j_hmtu j_master]. split; [reflexivity|]. split; [intros Q; contradiction (Q HIT)|]. split; [|reflexivity].
      intros m [_ [Q|[_ [Q|Q]]]]; [congruence|discriminate Q|]. injection Q as Q. congruence.
  - cbn [j_hmtu j_master]. split; [reflexivity|]. split; [intros Q; contradiction (Q HIT)|]. split; [|reflexivity].
    intros m [_ [Q|[_ [Q|Q]]]]; [congruence|discriminate Q|discriminate Q].
  - apply ON; [left; reflexivity|]. destruct mtu; reflexivity.
Qed.

Theorem junos_vlan_exact : forall vmod kind vlans l, let outs := fix_unit_0 vmod kind vlans l in
  Forall2 (fun i o =>
    (j_master o = true <-> j_master i = true \/ tagged_unit vmod outs o)
    /\ (j_mtu i = None -> j_hmtu o = j_hmtu i)
    /\ (forall m, j_mtu i = Some m -> flexible vmod kind outs o -> j_hmtu o = Some (m + 22))
    /\ (forall m, j_mtu i = Some m -> ~ flexible vmod kind outs o ->
          (no_char "." (j_name i) -> j_hmtu o = Some (m + 14)) /\ (~ no_char "." (j_name i) -> j_hmtu o = j_hmtu i))
    /\ (forall v, vmod = true -> no_char "." (j_name i) -> j_native i = Some v -> j_nid o = Some (dget v vlans))
    /\ (vmod = false \/ ~ no_char "." (j_name i) \/ j_native i = None -> j_nid o = j_nid i))
  l outs.
Proof.
  intros vmod kind vlans l outs. pose proof (fix_map vmod kind vlans l) as FM. fold outs in FM.
  match goal with |- Forall2 ?R l outs => set (R0 := R) end. rewrite FM. apply Forall2_map_self. intros i I. unfold R0. clear R0 FM.
  set (x := junos_one vmod vlans i). set (bs := bases_of vmod vlans l).
  destruct (master_keeps kind bs x) as [E1 [E2 [E3 [E4 [E5 [E6 E7]]]]]].
  assert (T : tagged_unit vmod outs (junos_master kind bs x) <-> j_unit x = Some "0" /\ exists b, j_base x = Some b /\ In b bs).
  { unfold tagged_unit. rewrite E5, E6. split.
    - intros [V [U [o' [b [J [NV [B B']]]]]]]. split; [exact U|]. exists b. split; [exact B'|]. apply (bases_in vmod kind). split; [exact V|]. exists o'. auto.
    - intros [U [b [B J]]]. apply (bases_in vmod kind) in J. destruct J as [V [o' [J [NV B']]]]. split; [exact V|]. split; [exact U|]. exists o', b. auto. }
  assert (F : flexible vmod kind outs (junos_master kind bs x) <-> (j_unit x = Some "0" /\ exists b, j_base x = Some b /\ In b bs)
    /\ (kind = "router" \/ kind = "l3-switch" /\ (j_vlan x = None \/ j_vlan x = Some (Some "route")))).
  { unfold flexible. rewrite T, E4. reflexivity. }
  assert (H : j_mtu x = j_mtu i /\ j_master x = j_master i
    /\ (no_char "." (j_name i) -> (forall m, j_mtu i = Some m -> j_hmtu x = Some (m + 14)) /\ (j_mtu i = None -> j_hmtu x = j_hmtu i) /\ j_nid x = nid_after vmod vlans i)
    /\ (~ no_char "." (j_name i) -> j_hmtu x = j_hmtu i /\ j_nid x = j_nid i)).
  { unfold x. destruct (has_dot (j_name i)) eqn:D.
    - destruct (one_dotted vmod vlans i D) as [b [u [N E]]]. rewrite E. cbn [j_mtu j_master j_hmtu j_nid].
      split; [reflexivity|]. split; [reflexivity|]. split; [intros Q; apply has_dot_false in Q; rewrite Q in D; discriminate D|]. intros _. split; reflexivity.
    - rewrite (one_plain vmod vlans i D). cbn [j_mtu j_master j_hmtu j_nid]. split; [reflexivity|]. split; [reflexivity|]. split.
      + intros _. split; [intros m M; rewrite M; reflexivity|]. split; [intros M; rewrite M; reflexivity|reflexivity].
      + intros Q. exfalso. apply Q. apply has_dot_false. exact D. }
  destruct H as [MT [MS [PL DO]]]. destruct (master_get kind bs x) as [M1 [M2 [M3 M4]]].
  assert (DD : no_char "." (j_name i) \/ ~ no_char "." (j_name i)).
  { destruct (has_dot (j_name i)) eqn:D; [right|left; apply has_dot_false; exact D]. intros Q. apply has_dot_false in Q. congruence. }
  rewrite E7. split.
  { rewrite T. split.
    - intros Q. destruct (j_master i) eqn:JM; [left; reflexivity|]. right.
      destruct (j_unit x) as [u|] eqn:U; [|rewrite M2 in Q; [congruence|intros [W _]; discriminate W]].
      destruct (j_base x) as [b|] eqn:B; [|rewrite M2 in Q; [congruence|intros [_ [c [W _]]]; discriminate W]].
      destruct (String.string_dec u "0") as [W|W]; [|rewrite M2 in Q; [congruence|intros [W' _]; congruence]].
      destruct (in_dec String.string_dec b bs) as [Y|Y]; [|rewrite M2 in Q; [congruence|intros [_ [c [W' Y']]]; congruence]].
      subst u. split; [reflexivity|]. exists b. auto.
    - intros [Q|Q]; [|exact (M1 Q)].
      destruct (j_unit x) as [u|] eqn:U; [|rewrite M2; [congruence|intros [W _]; discriminate W]].
      destruct (j_base x) as [b|] eqn:B; [|rewrite M2; [congruence|intros [_ [c [W _]]]; discriminate W]].
      destruct (String.string_dec u "0") as [W|W]; [|rewrite M2; [congruence|intros [W' _]; congruence]].
      destruct (in_dec String.string_dec b bs) as [Y|Y]; [|rewrite M2; [congruence|intros [_ [c [W' Y']]]; congruence]].
      apply M1. split; [congruence|]. exists b. auto. }
  split.
  { intros N. rewrite M4 by (left; congruence). destruct DD as [D|D]; [exact (proj1 (proj2 (PL D)) N)|exact (proj1 (DO D))]. }
  split. { intros m M FL. apply M3; [apply F; exact FL|congruence]. }
  split.
  { intros m M NF. rewrite M4 by (right; rewrite <- F; exact NF). split; intros D; [exact (proj1 (PL D) m M)|exact (proj1 (DO D))]. }
  split.
  { intros v V D N. rewrite (proj2 (proj2 (PL D))). unfold nid_after. rewrite V, N. reflexivity. }
  intros Q. destruct DD as [D|D]; [|exact (proj2 (DO D))]. rewrite (proj2 (proj2 (PL D))). unfold nid_after.
  destruct Q as [Q|[Q|Q]]; [rewrite Q; reflexivity|contradiction|rewrite Q; destruct vmod; reflexivity].
Qed.

(* copies of interfaces in OSPF lists have the names of the interfaces *)
Theorem junos_copy_names : forall vmod kind vlans l,
  map j_name (fix_unit_0 vmod kind vlans l) = map (fun i => j_name (fix_ospf_copy i)) l.
Proof.
  intros vmod kind vlans l. rewrite new_names, map_map. apply map_ext. intros i. unfold new_name, fix_ospf_copy.
  destruct (has_dot (j_name i)); reflexivity.
Qed.

Definition ex_if (n : string) (mtu : option Z) (nat : option string) (vl : option (option string)) : jintf := JI n mtu nat vl None None None None false.
Definition ex_ifs : list jintf :=
  [ex_if "ge-0/0/0" (Some 1500) (Some "red") None; ex_if "ge-0/0/0.100" None None (Some (Some "route")); ex_if "ge-0/0/1" (Some 9000) None None; ex_if "irb.5" None None (Some None)].

Example junos_units_case : map (fun o => (j_name o, j_base o, j_unit o, j_nid o, j_hmtu o, j_master o)) (fix_unit_0 true "router" [("red", 5)] ex_ifs) =
  [("ge-0/0/0.0", Some "ge-0/0/0", Some "0", Some (Some 5), Some 1522, true); ("ge-0/0/0.100", Some "ge-0/0/0", Some "100", None, None, false);
   ("ge-0/0/1.0", Some "ge-0/0/1", Some "0", None, Some 9014, false); ("irb.5", Some "irb", Some "5", None, None, false)].
Proof. reflexivity. Qed.

Example junos_names_case : NoDup (map j_name ex_ifs) /\ forall n, In n (map j_name ex_ifs) -> no_char "." n -> ~ In (n ++ ".0")%string (map j_name ex_ifs).
Proof.
  split.
  - repeat constructor; cbn; intuition discriminate.
  - intros n I N. cbn in I. destruct I as [I|[I|[I|[I|[]]]]]; subst n; cbn; intuition discriminate.
Qed.

(* two units 0 with one name *)
Example junos_names_clash : map j_name (fix_unit_0 false "router" [] [ex_if "lo0" None None None; ex_if "lo0.0" None None None]) = ["lo0.0"; "lo0.0"].
Proof. reflexivity. Qed.

(* ------------------------------------------------------------------ *)
(* C220: loopbacks of Junos devices                                     *)

(* loopbacks in a VRF; the main loopback and interfaces without a VRF are in "default" *)
Definition in_vrf (v : string) (i : option string * option string) : bool :=
  match fst i with
  | Some t => String.eqb t "loopback" && String.eqb (match snd i with Some w => w | None => "default" end) v
  | None => false
  end.
Definition loopbacks_in (main : bool) (l : list (option string * option string)) (v : string) : Z :=
  (if main && String.eqb v "default" then 1 else 0) + Z.of_nat (length (filter (in_vrf v) l)).

Definition cnt (d : dict Z) (v : string) : Z := match dget v d with Some n => n | None => 0 end.

Lemma step_cnt : forall d i v, cnt (loopback_step d i) v = cnt d v + (if in_vrf v i then 1 else 0).
Proof.
  intros d [[t|] w] v; unfold loopback_step, in_vrf; cbn [fst snd]; [|lia]. destruct (String.eqb t "loopback"); cbn [andb]; [|lia].
  set (k := match w with Some v => v | None => "default" end). unfold cnt. destruct (String.eqb_spec k v) as [E|E].
  - subst v. destruct (dget k d) as [n|] eqn:G; rewrite dget_dset_same; lia.
  - destruct (dget k d) as [n|] eqn:G; rewrite dget_dset_other by congruence; lia.
Qed.

Lemma fold_cnt : forall l d v, cnt (fold_left loopback_step l d) v = cnt d v + Z.of_nat (length (filter (in_vrf v) l)).
Proof.
  induction l as [|i l IH]; intros d v; [cbn; lia|]. cbn [fold_left filter]. rewrite IH, step_cnt. destruct (in_vrf v i); cbn [length]; lia.
Qed.

Lemma fold_keys : forall l d, NoDup (dkeys d) -> NoDup (dkeys (fold_left loopback_step l d)).
Proof.
  induction l as [|i l IH]; intros d N; [exact N|]. cbn [fold_left]. apply IH. unfold loopback_step.
  destruct (fst i) as [t|]; [|exact N]. destruct (String.eqb t "loopback"); [|exact N]. cbv zeta.
  destruct (dget _ d); apply NoDup_dset; exact N.
Qed.

Theorem multiple_loopbacks_exact : forall main l,
  (forall v n, In (v, n) (check_multiple_loopbacks main l) <-> n = loopbacks_in main l v /\ 1 < n)
  /\ NoDup (map fst (check_multiple_loopbacks main l)).
Proof.
  intros main l. unfold check_multiple_loopbacks. match goal with |- context [fold_left loopback_step l ?x] => set (d0 := x) end.
  assert (N0 : NoDup (dkeys d0)) by (unfold d0; destruct main; repeat constructor; intros []).
  pose proof (fold_keys l d0 N0) as ND. assert (C : forall v, cnt (fold_left loopback_step l d0) v = loopbacks_in main l v).
  { intros v. rewrite fold_cnt. unfold loopbacks_in. f_equal. unfold d0, cnt. destruct main; [|reflexivity]. cbn [dget andb].
    rewrite String.eqb_sym. destruct (String.eqb "default" v); reflexivity. }
  set (d := fold_left loopback_step l d0) in *. clearbody d. split.
  - intros v n. rewrite filter_In. cbn [snd]. rewrite negb_true_iff, Z.leb_gt. split.
    + intros [I P]. split; [|exact P]. rewrite <- C. unfold cnt. rewrite (dget_NoDup _ _ _ ND I). reflexivity.
    + intros [E P]. split; [|exact P]. rewrite <- C in E. unfold cnt in E. destruct (dget v d) as [m|] eqn:G; [|lia]. subst m. exact (dget_In _ _ G).
  - clear C. unfold dkeys in ND. induction d as [|x d IH]; [constructor|]. cbn [map] in ND. apply NoDup_cons_iff in ND. destruct ND as [NI ND].
    cbn [filter]. destruct (negb (snd x <=? 1)); [|apply IH; exact ND]. cbn [map]. constructor; [|apply IH; exact ND].
    intros Q. apply NI. apply in_map_iff in Q. destruct Q as [y [E I]]. apply filter_In in I. apply in_map_iff. exists y. split; [exact E|apply I].
Qed.

(* a VRF called default is mixed up with the global routing table: two loopbacks are reported although every table has one *)
Theorem one_loopback_per_table_refuted : exists l,
  (forall i, In i l -> fst i = Some "loopback" -> snd i <> None) /\ NoDup (map snd l) /\ check_multiple_loopbacks true l = [("default", 2)].
Proof.
  exists [(Some "loopback", Some "default"); (Some "loopback", Some "red")]. split; [|split; [|reflexivity]].
  - intros i [E|[E|[]]] _; subst i; discriminate.
  - repeat constructor; cbn; intuition discriminate.
Qed.

Example multiple_loopbacks_case : check_multiple_loopbacks true
  [(Some "loopback", Some "red"); (None, None); (Some "loopback", None); (Some "lan", Some "red"); (Some "loopback", Some "blue"); (Some "loopback", Some "red"); (Some "loopback", None)]
  = [("default", 3); ("red", 2)].
Proof. reflexivity. Qed.

(* ------------------------------------------------------------------ *)
(* C221: tagged VLAN 1 and reserved VLANs                               *)

(* VLAN 1 is tagged: it is in the trunk and the trunk has no native VLAN *)
Definition tagged_1 (i : vintf) : Prop := In 1 (v_trunk i) /\ (v_access i = None \/ v_access i = Some 0).

Lemma tagged_1_dec : forall i, memZ 1 (v_trunk i) && no_native (v_access i) = true <-> tagged_1 i.
Proof.
  intros i. unfold tagged_1. rewrite andb_true_iff, memZ_true. unfold no_native. destruct (v_access i) as [n|].
  - rewrite Z.eqb_eq. split; intros [A B]; (split; [exact A|]); [right; congruence|destruct B as [B|B]; [discriminate B|congruence]].
  - split; intros [A B]; (split; [exact A|]); [left; reflexivity|reflexivity].
Qed.

Definition hidden (warn : val) (path : list string) : Prop := exists v, lookup path warn = Some v /\ truthy v = false.

Lemma quirk_hidden : forall warn path, quirk_enabled warn path = false <-> hidden warn path.
Proof.
  intros warn path. unfold quirk_enabled, hidden. destruct (lookup path warn) as [v|].
  - split; [intros H; exists v; split; [reflexivity|exact H]|intros [w [E T]]; injection E as E; subst w; exact T].
  - split; [intros H; discriminate H|intros [w [E _]]; discriminate E].
Qed.

Theorem tagged_vlan_1_exact : forall id name warn l,
  Forall2 (fun i o => v_name o = v_name i /\ v_trunk o = v_trunk i
                      /\ (tagged_1 i -> v_access o = Some id /\ v_nat o = Some name) /\ (~ tagged_1 i -> o = i))
    l (fst (vlan_1_tagged id name warn l))
  /\ (id <> 0 -> forall o, In o (fst (vlan_1_tagged id name warn l)) -> ~ tagged_1 o)
  /\ (hidden warn ["vlan"; "tagged_1"] -> snd (vlan_1_tagged id name warn l) = [])
  /\ (~ hidden warn ["vlan"; "tagged_1"] ->
        (forall n, In n (snd (vlan_1_tagged id name warn l)) <-> exists i, In i l /\ tagged_1 i /\ v_name i = n)
        /\ subseq (snd (vlan_1_tagged id name warn l)) (map v_name l)).
Proof.
  intros id name warn l. unfold vlan_1_tagged. cbn [fst snd].
  assert (S : forall i, tagged_1 i /\ vlan_1_intf id name i = (VI (v_name i) (v_trunk i) (Some id) (Some name), true)
                        \/ ~ tagged_1 i /\ vlan_1_intf id name i = (i, false)).
  { intros i. unfold vlan_1_intf. destruct (memZ 1 (v_trunk i) && no_native (v_access i)) eqn:T.
    - left. apply tagged_1_dec in T. split; [exact T|reflexivity].
    - right. split; [|reflexivity]. intros Q. apply tagged_1_dec in Q. congruence. }
  split.
  { apply Forall2_map_self. intros i _. destruct (S i) as [[T E]|[T E]]; rewrite E; cbn [fst v_name v_trunk v_access v_nat].
    - split; [reflexivity|]. split; [reflexivity|]. split; [intros _; split; reflexivity|intros Q; contradiction].
    - split; [reflexivity|]. split; [reflexivity|]. split; [intros Q; contradiction|reflexivity]. }
  split.
  { intros NZ o I. apply in_map_iff in I. destruct I as [i [E _]]. subst o. destruct (S i) as [[T E]|[T E]]; rewrite E; cbn [fst]; [|exact T].
    unfold tagged_1. cbn [v_access]. intros [_ [Q|Q]]; [discriminate Q|]. injection Q as Q. contradiction. }
  split.
  { intros H. apply quirk_hidden in H. induction l as [|i l IH]; [reflexivity|]. cbn [flat_map]. rewrite IH, H, andb_false_r. reflexivity. }
  intros H. assert (QE : quirk_enabled warn ["vlan"; "tagged_1"] = true).
  { destruct (quirk_enabled warn ["vlan"; "tagged_1"]) eqn:Q; [reflexivity|]. apply quirk_hidden in Q. contradiction. }
  split.
  - intros n. rewrite in_flat_map. split.
    + intros [i [I J]]. exists i. split; [exact I|]. destruct (S i) as [[T E]|[T E]]; rewrite E in J; cbn [snd andb] in J; [|destruct J].
      rewrite QE in J. destruct J as [J|[]]. split; [exact T|exact J].
    + intros [i [I [T N]]]. exists i. split; [exact I|]. destruct (S i) as [[T' E]|[T' E]]; [|contradiction]. rewrite E, QE. cbn [snd andb]. left. exact N.
  - clear S. induction l as [|i l IH]; [constructor|]. cbn [flat_map map]. rewrite QE. destruct (snd (vlan_1_intf id name i)); cbn [andb app].
    + rewrite QE in IH. apply subseq_keep. exact IH.
    + rewrite QE in IH. apply subseq_skip. exact IH.
Qed.

Theorem reserved_vlans_exact : forall warn vlans n,
  (In n (ios_reserved vlans) <-> exists id, In (n, id) vlans /\ 1002 <= id <= 1005)
  /\ (In n (nxos_reserved warn vlans) <-> ~ hidden warn ["vlan"; "range"] /\ exists id, In (n, id) vlans /\ 3967 <= id).
Proof.
  intros warn vlans n. unfold ios_reserved, nxos_reserved. rewrite !in_flat_map. split.
  - split.
    + intros [[m id] [I J]]. cbn [fst snd] in J. destruct (1002 <=? id) eqn:A; [|destruct J]. destruct (id <? 1006) eqn:B; [|destruct J].
      destruct J as [J|[]]. subst m. apply Z.leb_le in A. apply Z.ltb_lt in B. exists id. split; [exact I|lia].
    + intros [id [I R]]. exists (n, id). split; [exact I|]. cbn [fst snd]. rewrite (proj2 (Z.leb_le 1002 id)), (proj2 (Z.ltb_lt id 1006)) by lia. left. reflexivity.
  - destruct (quirk_enabled warn ["vlan"; "range"]) eqn:Q.
    + assert (NH : ~ hidden warn ["vlan"; "range"]) by (rewrite <- quirk_hidden; congruence). split.
      * intros [[m id] [I J]]. cbn [fst snd] in J. destruct (3966 <? id) eqn:A; [|destruct J]. destruct J as [J|[]]. subst m. apply Z.ltb_lt in A.
        split; [exact NH|]. exists id. split; [exact I|lia].
      * intros [_ [id [I R]]]. exists (n, id). split; [exact I|]. cbn [fst snd]. rewrite (proj2 (Z.ltb_lt 3966 id)) by lia. left. reflexivity.
    + apply quirk_hidden in Q. split; [|intros [N _]; contradiction]. intros [x [_ J]]. rewrite andb_false_r in J. destruct J.
Qed.

(* the native VLAN added by the quirk is not a VLAN of the node, when reserved VLANs are not reported *)
Theorem added_native_unused : forall warn vlans l i o,
  In o (fst (vlan_1_tagged 1002 "fddi" warn l)) -> In i l -> v_name o = v_name i -> NoDup (map v_name l) -> tagged_1 i ->
  (forall t, In t (v_trunk i) -> exists n, In (n, t) vlans) -> ios_reserved vlans = [] ->
  v_access o = Some 1002 /\ ~ In 1002 (v_trunk o) /\ forall n, ~ In (n, 1002) vlans.
Proof.
  intros warn vlans l i o O I E ND T TR R.
  assert (NV : forall n, ~ In (n, 1002) vlans).
  { intros n J. destruct (reserved_vlans_exact warn vlans n) as [[_ A] _]. rewrite R in A. apply A. exists 1002. split; [exact J|lia]. }
  destruct (tagged_vlan_1_exact 1002 "fddi" warn l) as [F _].
  assert (G : exists j, In j l /\ v_name o = v_name j /\ v_trunk o = v_trunk j /\ (tagged_1 j -> v_access o = Some 1002)).
  { clear -F O. induction F as [|j p l ps H F IH]; [destruct O|]. destruct O as [O|O].
    - subst p. exists j. split; [left; reflexivity|]. destruct H as [A [B [C _]]]. split; [exact A|]. split; [exact B|]. intros T. apply C. exact T.
    - destruct (IH O) as [k [K Q]]. exists k. split; [right; exact K|exact Q]. }
  destruct G as [j [J [A [B C]]]]. assert (Q : j = i) by (eapply NoDup_map_inv_in; [exact ND|exact J|exact I|congruence]). subst j.
  split; [exact (C T)|]. split; [|exact NV]. rewrite B. intros W. destruct (TR _ W) as [n W']. exact (NV n W').
Qed.

Theorem added_native_unused_nxos : forall warn vlans l i o,
  In o (fst (vlan_1_tagged 3967 "fake" warn l)) -> In i l -> v_name o = v_name i -> NoDup (map v_name l) -> tagged_1 i ->
  (forall t, In t (v_trunk i) -> exists n, In (n, t) vlans) -> nxos_reserved warn vlans = [] -> ~ hidden warn ["vlan"; "range"] ->
  v_access o = Some 3967 /\ ~ In 3967 (v_trunk o) /\ forall n, ~ In (n, 3967) vlans.
Proof.
  intros warn vlans l i o O I E ND T TR R NH.
  assert (NV : forall n, ~ In (n, 3967) vlans).
  { intros n J. destruct (reserved_vlans_exact warn vlans n) as [_ [_ A]]. rewrite R in A. apply A. split; [exact NH|]. exists 3967. split; [exact J|lia]. }
  destruct (tagged_vlan_1_exact 3967 "fake" warn l) as [F _].
  assert (G : exists j, In j l /\ v_name o = v_name j /\ v_trunk o = v_trunk j /\ (tagged_1 j -> v_access o = Some 3967)).
  { clear -F O. induction F as [|j p l ps H F IH]; [destruct O|]. destruct O as [O|O].
    - subst p. exists j. split; [left; reflexivity|]. destruct H as [A [B [C _]]]. split; [exact A|]. split; [exact B|]. intros T. apply C. exact T.
    - destruct (IH O) as [k [K Q]]. exists k. split; [right; exact K|exact Q]. }
  destruct G as [j [J [A [B C]]]]. assert (Q : j = i) by (eapply NoDup_map_inv_in; [exact ND|exact J|exact I|congruence]). subst j.
  split; [exact (C T)|]. split; [|exact NV]. rewrite B. intros W. destruct (TR _ W) as [n W']. exact (NV n W').
Qed.

(* with the range check switched off the added native VLAN may be a tagged VLAN of the same trunk *)
Theorem added_native_unused_refuted : exists warn vlans i o,
  (forall t, In t (v_trunk i) -> exists n, In (n, t) vlans) /\ nxos_reserved warn vlans = []
  /\ fst (vlan_1_tagged 3967 "fake" warn [i]) = [o] /\ v_access o = Some 3967 /\ In 3967 (v_trunk o).
Proof.
  exists (VDict [("vlan", VDict [("range", VBool false)])]), [("one", 1); ("high", 3967)], (VI "Eth1/1" [1; 3967] None None), (VI "Eth1/1" [1; 3967] (Some 3967) (Some "fake")).
  split; [|repeat split; cbn; auto]. intros t [E|[E|[]]]; subst t; [exists "one"; left; reflexivity|exists "high"; right; left; reflexivity].
Qed.

Definition ex_trunks : list vintf := [VI "Eth1/1" [1; 100] None None; VI "Eth1/2" [1; 100] (Some 1) (Some "one"); VI "Eth1/3" [100] None None].

Example tagged_vlan_1_case : vlan_1_tagged 3967 "fake" (VDict []) ex_trunks =
  ([VI "Eth1/1" [1; 100] (Some 3967) (Some "fake"); VI "Eth1/2" [1; 100] (Some 1) (Some "one"); VI "Eth1/3" [100] None None], ["Eth1/1"]).
Proof. reflexivity. Qed.

Example reserved_vlans_case : ios_reserved [("a", 1001); ("b", 1002); ("c", 1005); ("d", 1006)] = ["b"; "c"]
  /\ nxos_reserved (VDict []) [("a", 3966); ("b", 3967)] = ["b"].
Proof. split; reflexivity. Qed.

Example added_native_case : let i := VI "Eth1/1" [1; 100] None None in
  tagged_1 i /\ (forall t, In t (v_trunk i) -> exists n, In (n, t) [("one", 1); ("red", 100)]) /\ NoDup (map v_name ex_trunks)
  /\ nxos_reserved (VDict []) [("one", 1); ("red", 100)] = [] /\ ios_reserved [("one", 1); ("red", 100)] = [] /\ ~ hidden (VDict []) ["vlan"; "range"].
Proof.
  cbv zeta. split; [split; [left; reflexivity|left; reflexivity]|]. split.
  { intros t [E|[E|[]]]; subst t; [exists "one"; left; reflexivity|exists "red"; right; left; reflexivity]. }
  split; [repeat constructor; cbn; intuition discriminate|]. split; [reflexivity|]. split; [reflexivity|]. intros [v [E _]]. discriminate E.
Qed.

(* ------------------------------------------------------------------ *)
(* C222: Cumulus NVUE                                                   *)

Theorem nvue_stp_exact : forall proto l,
  (forall n, In (NonVlan n) (nvue_stp proto l) <-> exists i, In i l /\ s_name i = n /\ s_prio i = true /\ s_vlan i = false)
  /\ (forall n, In (NoPvrst n) (nvue_stp proto l) <-> proto <> "pvrst" /\ exists i, In i l /\ s_name i = n /\ s_prio i = true /\ s_vlan i = true)
  /\ (forall v n, In (TrunkNoPvrst v n) (nvue_stp proto l) <-> proto <> "pvrst" /\ exists i, In i l /\ s_name i = n /\ In (v, true) (s_trunk i)).
Proof.
  intros proto l. unfold nvue_stp. split; [|split].
  - intros n. rewrite in_app_iff, in_flat_map. split.
    + intros [[i [I J]]|J].
      * exists i. destruct (s_prio i); [|destruct J]. destruct (s_vlan i); cbn [negb] in J.
        -- destruct (negb (String.eqb proto "pvrst")); [|destruct J]. destruct J as [J|[]]. discriminate J.
        -- destruct J as [J|[]]. injection J as J. auto.
      * destruct (negb (String.eqb proto "pvrst")); [|destruct J]. apply in_flat_map in J. destruct J as [i [_ J]]. apply in_flat_map in J.
        destruct J as [[v b] [_ J]]. cbn [snd] in J. destruct b; [|destruct J]. destruct J as [J|[]]. discriminate J.
    + intros [i [I [N [P V]]]]. left. exists i. split; [exact I|]. rewrite P, V. cbn [negb]. left. rewrite N. reflexivity.
  - intros n. rewrite in_app_iff, in_flat_map. split.
    + intros [[i [I J]]|J].
      * destruct (s_prio i) eqn:P; [|destruct J]. destruct (s_vlan i) eqn:V; cbn [negb] in J.
        -- destruct (String.eqb_spec proto "pvrst") as [Q|Q]; cbn [negb] in J; [destruct J|]. destruct J as [J|[]]. injection J as J. split; [exact Q|]. exists i. auto.
        -- destruct J as [J|[]]. discriminate J.
      * destruct (negb (String.eqb proto "pvrst")); [|destruct J]. apply in_flat_map in J. destruct J as [i [_ J]]. apply in_flat_map in J.
        destruct J as [[v b] [_ J]]. cbn [snd] in J. destruct b; [|destruct J]. destruct J as [J|[]]. discriminate J.
    + intros [Q [i [I [N [P V]]]]]. left. exists i. split; [exact I|]. rewrite P, V. apply String.eqb_neq in Q. rewrite Q. cbn [negb]. left. rewrite N. reflexivity.
  - intros v n. rewrite in_app_iff, in_flat_map. split.
    + intros [[i [I J]]|J].
      * destruct (s_prio i); [|destruct J]. destruct (negb (s_vlan i)); [destruct J as [J|[]]; discriminate J|].
        destruct (negb (String.eqb proto "pvrst")); [|destruct J]. destruct J as [J|[]]. discriminate J.
      * destruct (String.eqb_spec proto "pvrst") as [Q|Q]; cbn [negb] in J; [destruct J|]. split; [exact Q|]. apply in_flat_map in J. destruct J as [i [I J]].
        apply in_flat_map in J. destruct J as [[w b] [W J]]. cbn [fst snd] in J. destruct b; [|destruct J]. destruct J as [J|[]]. injection J as J1 J2. subst w. exists i. auto.
    + intros [Q [i [I [N W]]]]. right. apply String.eqb_neq in Q. rewrite Q. cbn [negb]. apply in_flat_map. exists i. split; [exact I|].
      apply in_flat_map. exists (v, true). split; [exact W|]. cbn [fst snd]. left. rewrite N. reflexivity.
Qed.

(* the protocol of the node is not used: a node running PVRST in a topology with another default is reported *)
Theorem nvue_node_protocol_refuted : exists topo l,
  (forall i, In i l -> s_prio i = true -> s_vlan i = true) /\ nvue_check_stp topo (Some "pvrst") l <> [].
Proof.
  exists (Some "stp"), [SI "swp1" true true []]. split; [|discriminate]. intros i [E|[]] _. subst i. reflexivity.
Qed.

(* nothing is reported about VLANs exactly when the topology runs PVRST or nothing has a priority *)
Theorem nvue_check_stp_clean : forall topo node l, nvue_check_stp topo node l = [] <->
  (forall i, In i l -> s_prio i = true -> s_vlan i = true)
  /\ (topo = Some "pvrst" \/ forall i, In i l -> s_prio i = false /\ forall v, ~ In (v, true) (s_trunk i)).
Proof.
  intros topo node l. unfold nvue_check_stp. set (p := match topo with Some p => p | None => "stp" end).
  destruct (nvue_stp_exact p l) as [A [B C]].
  assert (TP : p = "pvrst" <-> topo = Some "pvrst").
  { unfold p. destruct topo as [t|]; split; intros E; try congruence; discriminate E. }
  split.
  - intros E. rewrite E in A, B, C.
    assert (V : forall i, In i l -> s_prio i = true -> s_vlan i = true).
    { intros i I P. destruct (s_vlan i) eqn:V; [reflexivity|]. exfalso. apply (A (s_name i)). exists i. auto. }
    split; [exact V|]. destruct (String.string_dec p "pvrst") as [Q|Q]; [left; apply TP; exact Q|right]. intros i I. split.
    + destruct (s_prio i) eqn:P; [|reflexivity]. exfalso. apply (B (s_name i)). split; [exact Q|]. exists i. auto.
    + intros v W. apply (C v (s_name i)). split; [exact Q|]. exists i. auto.
  - intros [V D]. destruct (nvue_stp p l) as [|e r] eqn:E; [reflexivity|]. exfalso. destruct e as [n|n|v n].
    + destruct (proj1 (A n) (or_introl eq_refl)) as [i [I [_ [P NV]]]]. rewrite (V i I P) in NV. discriminate NV.
    + destruct (proj1 (B n) (or_introl eq_refl)) as [Q [i [I [_ [P _]]]]]. destruct D as [D|D]; [apply Q; apply TP; exact D|].
      destruct (D i I) as [D1 _]. congruence.
    + destruct (proj1 (C v n) (or_introl eq_refl)) as [Q [i [I [_ W]]]]. destruct D as [D|D]; [apply Q; apply TP; exact D|].
      destruct (D i I) as [_ D2]. exact (D2 v W).
Qed.

Definition routed_native (modes : dict string) (i : tintf) : Prop := exists v, t_native i = Some v /\ dget v modes = Some "route".
Definition bridged_child (i j : tintf) : Prop :=
  t_parent j = Some (t_ifindex i) /\ (t_mode j = None \/ t_mode j = Some "bridge" \/ t_mode j = Some "irb").

Lemma bridged_spec : forall m, bridged m = true <-> m = None \/ m = Some "bridge" \/ m = Some "irb".
Proof.
  intros [m|]; unfold bridged; [|split; [intros _; left; reflexivity|reflexivity]]. rewrite orb_true_iff, !String.eqb_eq. split.
  - intros [E|E]; subst m; auto.
  - intros [E|[E|E]]; [discriminate E| |]; injection E as E; auto.
Qed.

Theorem nvue_mixed_exact : forall modes l n,
  In n (nvue_mixed modes l) <-> exists i j, In i l /\ In j l /\ t_name i = n /\ routed_native modes i /\ bridged_child i j.
Proof.
  intros modes l n. unfold nvue_mixed, routed_native, bridged_child. rewrite in_flat_map. split.
  - intros [i [I J]]. destruct (t_native i) as [v|] eqn:N; [|destruct J]. destruct (dget v modes) as [m|] eqn:M; [|destruct J].
    destruct (String.eqb_spec m "route") as [R|R]; [|destruct J]. subst m. apply in_flat_map in J. destruct J as [j [J K]].
    destruct (t_parent j) as [p|] eqn:P; [|destruct K]. destruct (p =? t_ifindex i) eqn:E; cbn [andb] in K; [|destruct K].
    destruct (bridged (t_mode j)) eqn:B; [|destruct K]. destruct K as [K|[]]. apply Z.eqb_eq in E. apply bridged_spec in B. subst p.
    exists i, j. split; [exact I|]. split; [exact J|]. split; [exact K|]. split; [exists v; auto|]. split; [exact P|exact B].
  - intros [i [j [I [J [N [[v [V M]] [P B]]]]]]]. exists i. split; [exact I|]. rewrite V, M. cbn [String.eqb]. apply in_flat_map. exists j. split; [exact J|].
    rewrite P, Z.eqb_refl. apply bridged_spec in B. rewrite B. left. exact N.
Qed.

Definition has_vtep (nodes : dict (option string)) (n v : string) : Prop := dget n nodes = Some (Some v).

Lemma owner_spec : forall me v nodes, (forall m, vtep_owner me v nodes = Some m <->
    exists a b, nodes = a ++ (m, Some v) :: b /\ m <> me /\ forall n w, In (n, w) a -> n = me \/ w <> Some v)
  /\ (vtep_owner me v nodes = None <-> forall n, n <> me -> ~ In (n, Some v) nodes).
Proof.
  intros me v. induction nodes as [|[n w] r [IH1 IH2]].
  { cbn [vtep_owner]. split; [|split; [intros _ n _ []|reflexivity]]. intros m. split; [intros H; discriminate H|]. intros [a [b [E _]]]. destruct a; discriminate E. }
  assert (D : (n <> me /\ w = Some v /\ vtep_owner me v ((n, w) :: r) = Some n) \/ ((n = me \/ w <> Some v) /\ vtep_owner me v ((n, w) :: r) = vtep_owner me v r)).
  { cbn [vtep_owner]. destruct w as [w|]; [|right; split; [right; discriminate|reflexivity]].
    destruct (String.eqb_spec n me) as [E|E]; cbn [negb andb]; [right; split; [left; exact E|reflexivity]|].
    destruct (String.eqb_spec w v) as [W|W]; [left; subst w; auto|right; split; [right; congruence|reflexivity]]. }
  destruct D as [[NE [W E]]|[S E]]; rewrite E.
  - subst w. split.
    + intros m. split.
      * intros H. injection H as H. subst m. exists [], r. split; [reflexivity|]. split; [exact NE|]. intros x y [].
      * intros [a [b [Q [M A]]]]. destruct a as [|[x y] a]; [injection Q as Q _; rewrite Q; reflexivity|]. exfalso. injection Q as Q1 Q2 _.
        destruct (A x y (or_introl eq_refl)) as [Y|Y]; congruence.
    + split; [intros H; discriminate H|]. intros H. exfalso. apply (H n NE). left. reflexivity.
  - split.
    + intros m. rewrite IH1. split.
      * intros [a [b [Q [M A]]]]. exists ((n, w) :: a), b. split; [rewrite Q; reflexivity|]. split; [exact M|].
        intros x y [Y|Y]; [injection Y as Y1 Y2; subst x y; exact S|exact (A x y Y)].
      * intros [a [b [Q [M A]]]]. destruct a as [|[x y] a].
        -- injection Q as Q1 Q2 _. exfalso. destruct S as [S|S]; congruence.
        -- injection Q as _ _ Q. exists a, b. split; [exact Q|]. split; [exact M|]. intros x' y' Y. apply A. right. exact Y.
    + rewrite IH2. split.
      * intros H x X [Y|Y]; [|exact (H x X Y)]. injection Y as Y1 Y2. destruct S as [S|S]; congruence.
      * intros H x X Y. exact (H x X (or_intror Y)).
Qed.

Theorem shared_vtep_exact : forall nodes me, NoDup (dkeys nodes) ->
  (forall m, shared_vtep me nodes = Some m <->
     exists v a b, v <> "" /\ has_vtep nodes me v /\ m <> me /\ nodes = a ++ (m, Some v) :: b /\ forall n, n <> me -> ~ In (n, Some v) a)
  /\ ((exists m, shared_vtep me nodes = Some m) <-> exists v n, v <> "" /\ n <> me /\ has_vtep nodes me v /\ has_vtep nodes n v).
Proof.
  intros nodes me ND. unfold shared_vtep, has_vtep. destruct (dget me nodes) as [[v|]|].
  2,3: split; [intros m; split; [intros H; discriminate H|intros [x [a [b [_ [H _]]]]]; discriminate H]|split; [intros [m H]; discriminate H|intros [x [n [_ [_ [H _]]]]]; discriminate H]].
  destruct (String.eqb_spec v "") as [V|V].
  { split; [intros m; split; [intros H; discriminate H|intros [x [a [b [X [H _]]]]]; congruence]|split; [intros [m H]; discriminate H|intros [x [n [X [_ [H _]]]]]; congruence]]. }
  destruct (owner_spec me v nodes) as [O1 O2]. split.
  - intros m. rewrite O1. split.
    + intros [a [b [E [M A]]]]. exists v, a, b. split; [exact V|]. split; [reflexivity|]. split; [exact M|]. split; [exact E|].
      intros n N I. destruct (A n _ I) as [Q|Q]; congruence.
    + intros [x [a [b [_ [X [M [E A]]]]]]]. injection X as X. subst x. exists a, b. split; [exact E|]. split; [exact M|].
      intros n w I. destruct (String.string_dec n me) as [Q|Q]; [left; exact Q|right]. intros W. subst w. exact (A n Q I).
  - split.
    + intros [m H]. apply O1 in H. destruct H as [a [b [E [M _]]]]. exists v, m. split; [exact V|]. split; [exact M|]. split; [reflexivity|].
      apply dget_NoDup; [exact ND|]. rewrite E. apply in_or_app. right. left. reflexivity.
    + intros [x [n [_ [N [X G]]]]]. injection X as X. subst x. destruct (vtep_owner me v nodes) as [m|] eqn:OW; [exists m; reflexivity|].
      exfalso. apply (proj1 O2 eq_refl n N). exact (dget_In _ _ G).
Qed.

(* sharing is mutual: the other node is marked too *)
Theorem shared_vtep_mutual : forall nodes me m, NoDup (dkeys nodes) -> shared_vtep me nodes = Some m -> exists k, shared_vtep m nodes = Some k.
Proof.
  intros nodes me m ND H. apply (shared_vtep_exact nodes me ND) in H. destruct H as [v [a [b [V [G [M [E _]]]]]]].
  apply (proj2 (shared_vtep_exact nodes m ND)). exists v, me. split; [exact V|]. split; [congruence|]. split; [|exact G].
  apply dget_NoDup; [exact ND|]. rewrite E. apply in_or_app. right. left. reflexivity.
Qed.

Example nvue_stp_case : nvue_stp "stp" [SI "swp1" false true []; SI "swp2" true true [("red", true); ("blue", false)]] =
  [NonVlan "swp1"; NoPvrst "swp2"; TrunkNoPvrst "red" "swp2"].
Proof. reflexivity. Qed.
Example nvue_mixed_case : nvue_mixed [("red", "route")] [TI "swp1" 1 (Some "red") None None; TI "swp1.5" 2 None (Some 1) (Some "irb"); TI "swp1.6" 3 None (Some 1) (Some "route")] = ["swp1"].
Proof. reflexivity. Qed.
Example shared_vtep_case : let nodes := [("a", Some "10.0.0.1"); ("b", Some "10.0.0.2"); ("c", Some "10.0.0.1"); ("d", None)] in
  NoDup (dkeys nodes) /\ shared_vtep "a" nodes = Some "c" /\ shared_vtep "c" nodes = Some "a" /\ shared_vtep "b" nodes = None.
Proof. split; [repeat constructor; cbn; intuition discriminate|repeat split; reflexivity]. Qed.

(* ------------------------------------------------------------------ *)
(* C223: Arista EOS                                                     *)

Lemma bundle_fold : forall vlans ifs errs,
  (forall n, In n (fst (fold_left bundle_step vlans (ifs, errs))) <-> In n ifs /\ forall v, In v vlans -> ev_bundle v = true -> n <> ("Vlan" ++ zdec (ev_id v))%string)
  /\ subseq (fst (fold_left bundle_step vlans (ifs, errs))) ifs
  /\ (forall x, In x (snd (fold_left bundle_step vlans (ifs, errs))) <-> In x errs \/ exists v, In v vlans /\ ev_name v = x /\ ev_bundle v = true /\ ev_mode v <> Some "bridge").
Proof.
  induction vlans as [|v r IH]; intros ifs errs.
  { cbn [fold_left fst snd]. split; [intros n; split; [intros I; split; [exact I|intros v []]|intros [I _]; exact I]|]. split.
    - induction ifs as [|x ifs IHi]; constructor; exact IHi.
    - intros x. split; [intros I; left; exact I|intros [I|[v [[] _]]]; exact I]. }
  cbn [fold_left]. unfold bundle_step at 2 4 6. cbn [fst snd]. destruct (ev_bundle v) eqn:B.
  - match goal with |- context [fold_left bundle_step r (?a, ?b)] => destruct (IH a b) as [H1 [H2 H3]] end. split; [|split].
    + intros n. rewrite H1, filter_In, negb_true_iff, String.eqb_neq. unfold vlan_ifname. split.
      * intros [[I N] A]. split; [exact I|]. intros w [W|W] BW; [subst w; exact N|exact (A w W BW)].
      * intros [I A]. split; [split; [exact I|exact (A v (or_introl eq_refl) B)]|]. intros w W BW. exact (A w (or_intror W) BW).
    + assert (T : forall (a b c : list string), subseq a b -> subseq b c -> subseq a c).
      { intros a b c AB BC. revert a AB. induction BC as [|x b c BC IHb|x b c BC IHb]; intros a AB.
        - exact AB.
        - inversion AB as [|y a' b' AB' E1 E2|y a' b' AB' E1 E2]; subst; [apply subseq_keep|apply subseq_skip]; apply IHb; assumption.
        - apply subseq_skip. apply IHb. exact AB. }
      eapply T; [exact H2|]. clear. induction ifs as [|x ifs IHi]; [constructor|]. cbn [filter]. destruct (negb _); [apply subseq_keep|apply subseq_skip]; exact IHi.
    + intros x. rewrite H3, in_app_iff. split.
      * intros [[I|I]|[w [W Q]]]; [left; exact I| |right; exists w; split; [right; exact W|exact Q]].
        right. exists v. split; [left; reflexivity|]. destruct (ev_mode v) as [m|].
        -- destruct (String.eqb_spec m "bridge") as [M|M]; [destruct I|]. destruct I as [I|[]]. split; [exact I|]. split; [exact B|congruence].
        -- destruct I as [I|[]]. split; [exact I|]. split; [exact B|discriminate].
      * intros [I|[w [[W|W] [N [BW M]]]]]; [left; left; exact I| |right; exists w; auto].
        subst w. left. right. destruct (ev_mode v) as [m|]; [|left; exact N]. destruct (String.eqb_spec m "bridge") as [Q|Q]; [congruence|left; exact N].
  - destruct (IH ifs errs) as [H1 [H2 H3]]. split; [|split; [exact H2|]].
    + intros n. rewrite H1. split; intros [I A]; (split; [exact I|]); intros w W BW.
      * destruct W as [W|W]; [subst w; congruence|exact (A w W BW)].
      * exact (A w (or_intror W) BW).
    + intros x. rewrite H3. split; (intros [I|[w [W Q]]]; [left; exact I|]).
      * right. exists w. split; [right; exact W|exact Q].
      * right. destruct W as [W|W]; [subst w; destruct Q as [_ [Q _]]; congruence|]. exists w. auto.
Qed.

Theorem mpls_bundle_exact : forall transport vlans ifs,
  (transport <> Some "mpls" -> mpls_bundle transport vlans ifs = (ifs, []))
  /\ (transport = Some "mpls" ->
      subseq (fst (mpls_bundle transport vlans ifs)) ifs
      /\ (forall n, In n (fst (mpls_bundle transport vlans ifs))
            <-> In n ifs /\ forall v, In v vlans -> ev_bundle v = true -> n <> ("Vlan" ++ zdec (ev_id v))%string)
      /\ (forall x, In x (snd (mpls_bundle transport vlans ifs))
            <-> exists v, In v vlans /\ ev_name v = x /\ ev_bundle v = true /\ ev_mode v <> Some "bridge")).
Proof.
  intros transport vlans ifs. unfold mpls_bundle. split.
  - intros N. destruct transport as [t|]; [|reflexivity]. destruct (String.eqb_spec t "mpls") as [E|E]; [congruence|reflexivity].
  - intros E. subst transport. cbn [String.eqb Ascii.eqb Bool.eqb]. destruct (bundle_fold vlans ifs []) as [H1 [H2 H3]].
    split; [exact H2|]. split; [exact H1|]. intros x. rewrite H3. split; [intros [[]|Q]; exact Q|intros Q; right; exact Q].
Qed.

(* digits of a version number *)
Definition digit (c : ascii) (n : nat) : Prop := (n < 10)%nat /\ c = ascii_of_nat (48 + n).
Definition ceos_image (a b c : ascii) : string := "ceos:4." ++ String a (String b (String "." (String c "F"))).

Lemma digit_cases : forall c n, digit c n -> In (n, c)
  [(0%nat, "0"%char); (1%nat, "1"%char); (2%nat, "2"%char); (3%nat, "3"%char); (4%nat, "4"%char);
   (5%nat, "5"%char); (6%nat, "6"%char); (7%nat, "7"%char); (8%nat, "8"%char); (9%nat, "9"%char)].
Proof.
  intros c n [L E]. subst c. do 10 (destruct n as [|n]; [cbn; tauto|]). lia.
Qed.

Definition digits : list (nat * ascii) :=
  [(0%nat, "0"%char); (1%nat, "1"%char); (2%nat, "2"%char); (3%nat, "3"%char); (4%nat, "4"%char);
   (5%nat, "5"%char); (6%nat, "6"%char); (7%nat, "7"%char); (8%nat, "8"%char); (9%nat, "9"%char)].
Definition older (x y z : nat) : bool := (Nat.ltb (10 * x + y) 32 || Nat.eqb (10 * x + y) 32 && Nat.ltb z 1)%bool.

Lemma ceos_table : forallb (fun a => forallb (fun b => forallb (fun c =>
  Bool.eqb (ceos_old (ceos_image (snd a) (snd b) (snd c))) (older (fst a) (fst b) (fst c))) digits) digits) digits = true.
Proof. vm_compute. reflexivity. Qed.

(* versions with two-digit minor and one-digit patch numbers are compared as numbers *)
Theorem ceos_old_exact : forall a b c x y z, digit a x -> digit b y -> digit c z ->
  (ceos_old (ceos_image a b c) = true <-> (10 * x + y < 32 \/ 10 * x + y = 32 /\ z < 1)%nat).
Proof.
  intros a b c x y z A B C. apply digit_cases in A. apply digit_cases in B. apply digit_cases in C.
  pose proof (proj1 (forallb_forall _ _) ceos_table _ A) as H. cbn beta in H. pose proof (proj1 (forallb_forall _ _) H _ B) as H1. cbn beta in H1.
  pose proof (proj1 (forallb_forall _ _) H1 _ C) as H2. cbn beta in H2. apply eqb_prop in H2. cbn [fst snd] in H2. rewrite H2. unfold older.
  rewrite orb_true_iff, andb_true_iff, !Nat.ltb_lt, Nat.eqb_eq. reflexivity.
Qed.

(* in general versions are compared as texts: a later patch is reported, an earlier release is not, and the port of a registry is taken
   for the version *)
Theorem ceos_version_order_refuted :
  ceos_old "ceos:4.32.10F" = true /\ ceos_old "ceos:4.4.0F" = false
  /\ ceos_old "registry:5000/ceos:4.26.4M" = false /\ ceos_old "registry:30000/ceos:4.33.0F" = true.
Proof. repeat split; reflexivity. Qed.

(* an image without a version is reported *)
Theorem ceos_untagged_old : forall image, no_char ":" image -> ceos_old image = true.
Proof. intros image N. unfold ceos_old, ceos_version. apply split_none in N. rewrite N. reflexivity. Qed.

Example ceos_old_case : digit "3" 3 /\ digit "2" 2 /\ digit "0" 0 /\ ceos_old (ceos_image "3" "2" "0") = true /\ ceos_old (ceos_image "3" "2" "1") = false
  /\ no_char ":" "ceos".
Proof. do 3 (split; [split; [lia|reflexivity]|]). split; [reflexivity|]. split; [reflexivity|]. apply split1_None. reflexivity. Qed.
Example mpls_bundle_case : mpls_bundle (Some "mpls") [EV "red" 100 true (Some "bridge"); EV "blue" 101 true (Some "irb"); EV "grey" 102 false None]
  ["Ethernet1"; "Vlan100"; "Vlan101"; "Vlan102"] = (["Ethernet1"; "Vlan102"], ["blue"]).
Proof. reflexivity. Qed.

Print Assumptions junos_units_exact.
Print Assumptions junos_names_distinct.
Print Assumptions junos_vlan_exact.
Print Assumptions junos_copy_names.
Print Assumptions multiple_loopbacks_exact.
Print Assumptions one_loopback_per_table_refuted.
Print Assumptions tagged_vlan_1_exact.
Print Assumptions reserved_vlans_exact.
Print Assumptions added_native_unused.
Print Assumptions added_native_unused_nxos.
Print Assumptions added_native_unused_refuted.
Print Assumptions nvue_stp_exact.
Print Assumptions nvue_check_stp_clean.
Print Assumptions nvue_node_protocol_refuted.
Print Assumptions nvue_mixed_exact.
Print Assumptions shared_vtep_exact.
Print Assumptions shared_vtep_mutual.
Print Assumptions mpls_bundle_exact.
Print Assumptions ceos_old_exact.
Print Assumptions ceos_version_order_refuted.
Print Assumptions ceos_untagged_old.
