(* Property C170: BGP domains. *)
From Coq Require Import String Ascii ZArith Lia Bool List.
From Verif Require Import Base Box_Model Text_Model Text_Props Dom_Model.
From Verif Require Vrf_Model Vrf_Props Version_Props Types_Props.
Import ListNotations.
Local Open Scope string_scope.
Local Open Scope list_scope.

(* ------------------------------------------------------------------ *)
(* Specification                                                        *)

(* the domain of a node *)
Definition in_domain (n : dnode) (d : string) : Prop := dn_domain n = Some d \/ (dn_domain n = None /\ d = "default").

(* an IBGP session to a node in another domain *)
Definition crosses (nodes : dict dnode) (n : dnode) (g : dngb) : Prop :=
  dg_type g = "ibgp" /\ exists m d, dget (dg_name g) nodes = Some m /\ in_domain m d /\ ~ in_domain n d.

(* a domain of an AS that lost its route reflectors *)
Definition lost (nodes : dict dnode) (d : string) (asn : Z) : Prop :=
  (exists x n g, In (x, n) nodes /\ dn_bgp n = true /\ in_domain n d /\ dn_as n = asn /\ In g (dn_ngb n) /\ crosses nodes n g /\ dg_rr g = true) /\
  ~ exists x n, In (x, n) nodes /\ dn_bgp n = true /\ in_domain n d /\ dn_as n = asn /\ dn_rr n = true.

(* IBGP neighbors of BGP nodes are nodes; AS numbers are not negative *)
Definition proper (nodes : dict dnode) : Prop :=
  NoDup (dkeys nodes) /\ forall x n, In (x, n) nodes -> (0 <= dn_as n)%Z /\ forall g, In g (dn_ngb n) -> dg_type g = "ibgp" -> dget (dg_name g) nodes <> None.

(* ------------------------------------------------------------------ *)

Lemma in_domain_iff : forall n d, in_domain n d <-> domain n = d.
Proof.
  intros n d. unfold in_domain, domain. destruct (dn_domain n) as [x|].
  - split; [intros [H|[H _]]; [injection H as H; exact H|discriminate H]|intros H; left; rewrite H; reflexivity].
  - split; [intros [H|[_ H]]; [discriminate H|symmetry; exact H]|intros H; right; split; [reflexivity|symmetry; exact H]].
Qed.

Lemma cross_iff : forall nodes n g, (dg_type g = "ibgp" -> dget (dg_name g) nodes <> None) -> (is_cross nodes n g = true <-> crosses nodes n g).
Proof.
  intros nodes n g P. unfold is_cross, crosses, domain_of. rewrite andb_true_iff, String.eqb_eq. split.
  - intros [T D]. split; [exact T|]. destruct (dget (dg_name g) nodes) as [m|] eqn:M; [|exfalso; exact (P T eq_refl)].
    exists m, (domain m). split; [reflexivity|]. split; [apply in_domain_iff; reflexivity|]. rewrite in_domain_iff. intros Q. rewrite Q, String.eqb_refl in D. discriminate D.
  - intros [T [m [d [M [D1 D2]]]]]. split; [exact T|]. rewrite M. rewrite in_domain_iff in D1, D2. destruct (String.eqb_spec (domain m) (domain n)) as [Q|Q]; [|reflexivity].
    exfalso. apply D2. rewrite <- Q. exact D1.
Qed.

(* Sessions: everything but IBGP sessions between domains stays, in order. *)
Theorem domain_sessions_exact : forall nodes nodes' errs, proper nodes -> bgp_domains nodes = (nodes', errs) ->
  dkeys nodes' = dkeys nodes /\
  forall x n, In (x, n) nodes -> exists n', dget x nodes' = Some n' /\
    dn_bgp n' = dn_bgp n /\ dn_domain n' = dn_domain n /\ dn_as n' = dn_as n /\ dn_rr n' = dn_rr n /\
    (dn_bgp n = false -> dn_ngb n' = dn_ngb n) /\
    (dn_bgp n = true -> exists keep, dn_ngb n' = filter keep (dn_ngb n) /\ forall g, In g (dn_ngb n) -> (keep g = true <-> ~ crosses nodes n g)).
Proof.
  intros nodes nodes' errs [ND P] H. unfold bgp_domains in H. injection H as H1 H2. subst nodes' errs. split.
  - unfold dkeys. rewrite map_map. reflexivity.
  - intros x n I. exists (prune nodes n). split.
    + apply dget_NoDup.
      * unfold dkeys. rewrite map_map. cbn [fst]. exact ND.
      * apply in_map_iff. exists (x, n). split; [reflexivity|exact I].
    + unfold prune. destruct (dn_bgp n) eqn:B.
      * cbn [dn_bgp dn_domain dn_as dn_rr dn_ngb]. repeat (split; [reflexivity|]). split; [discriminate|]. intros _.
        exists (fun g => negb (is_cross nodes n g)). split; [reflexivity|]. intros g G. rewrite negb_true_iff, <- not_true_iff_false.
        rewrite cross_iff; [reflexivity|]. exact (proj2 (P x n I) g G).
      * split; [exact B|]. split; [reflexivity|]. split; [reflexivity|]. split; [reflexivity|]. split; [intros _; reflexivity|]. intros Q. discriminate Q.
Qed.

(* Both ends of an IBGP session agree about it. *)
Theorem domain_sessions_symmetric : forall nodes nodes' errs a b na nb na' nb' ga gb, proper nodes -> bgp_domains nodes = (nodes', errs) ->
  dget a nodes = Some na -> dget b nodes = Some nb -> dget a nodes' = Some na' -> dget b nodes' = Some nb' ->
  dn_bgp na = true -> dn_bgp nb = true ->
  In ga (dn_ngb na) -> dg_type ga = "ibgp" -> dg_name ga = b -> In gb (dn_ngb nb) -> dg_type gb = "ibgp" -> dg_name gb = a ->
  (In ga (dn_ngb na') <-> In gb (dn_ngb nb')).
Proof.
  intros nodes nodes' errs a b na nb na' nb' ga gb P H A B A' B' TA TB GA YA EA GB YB EB.
  destruct (domain_sessions_exact nodes nodes' errs P H) as [_ S].
  destruct (S a na (dget_In _ _ A)) as [n1 [N1 [_ [_ [_ [_ [_ K1]]]]]]]. rewrite A' in N1. injection N1 as N1. subst n1. destruct (K1 TA) as [k1 [F1 G1]].
  destruct (S b nb (dget_In _ _ B)) as [n2 [N2 [_ [_ [_ [_ [_ K2]]]]]]]. rewrite B' in N2. injection N2 as N2. subst n2. destruct (K2 TB) as [k2 [F2 G2]].
  rewrite F1, F2, !filter_In, (G1 ga GA), (G2 gb GB).
  assert (C : crosses nodes na ga <-> crosses nodes nb gb).
  { unfold crosses. rewrite EA, EB, A, B. split.
    - intros [_ [m [d [M [D1 D2]]]]]. injection M as M. subst m. split; [exact YB|]. exists na, (domain na). split; [reflexivity|]. rewrite !in_domain_iff in *.
      split; [reflexivity|]. intros Q. apply D2. rewrite <- Q. exact D1.
    - intros [_ [m [d [M [D1 D2]]]]]. injection M as M. subst m. split; [exact YA|]. exists nb, (domain nb). split; [reflexivity|]. rewrite !in_domain_iff in *.
      split; [reflexivity|]. intros Q. apply D2. rewrite <- Q. exact D1. }
  rewrite C. split; (intros [_ K]; split; [assumption|exact K]).
Qed.

(* ------------------------------------------------------------------ *)
(* Flags                                                                *)

Definition bad (nodes : dict dnode) (n : dnode) : bool := existsb (fun g => is_cross nodes n g && dg_rr g) (dn_ngb n).

Lemma ngb_flags : forall nodes n l f k,
  dget k (fold_left (fun f g => if is_cross nodes n g && dg_rr g && negb (dmem (domain_as n) f) then dset (domain_as n) false f else f) l f) =
  if String.eqb k (domain_as n) && existsb (fun g => is_cross nodes n g && dg_rr g) l && negb (dmem (domain_as n) f) then Some false else dget k f.
Proof.
  intros nodes n l. induction l as [|g l IH]; intros f k; cbn [fold_left existsb]; [rewrite andb_false_r; reflexivity|]. rewrite IH.
  destruct (is_cross nodes n g && dg_rr g); cbn [andb orb]; [|reflexivity]. rewrite andb_true_r. destruct (dmem (domain_as n) f) eqn:M; cbn [negb].
  - rewrite M. cbn [negb]. rewrite !andb_false_r. reflexivity.
  - unfold dmem at 1. rewrite dget_dset_same. cbn [negb]. rewrite !andb_false_r, andb_true_r.
    destruct (String.eqb_spec k (domain_as n)) as [Q|Q]; [subst; apply dget_dset_same|apply dget_dset_other; exact Q].
Qed.

Lemma node_flags_get : forall nodes f n k, dget k (node_flags nodes f n) =
  if String.eqb k (domain_as n) && dn_bgp n then
    if dn_rr n then Some true else match dget k f with Some v => Some v | None => if bad nodes n then Some false else None end
  else dget k f.
Proof.
  intros nodes f n k. unfold node_flags. destruct (dn_bgp n); [|rewrite andb_false_r; reflexivity]. rewrite andb_true_r, ngb_flags. fold (bad nodes n).
  destruct (String.eqb_spec k (domain_as n)) as [Q|Q].
  - subst k. cbn [andb]. destruct (dn_rr n).
    + unfold dmem. rewrite dget_dset_same. cbn [negb]. rewrite andb_false_r. reflexivity.
    + unfold dmem. destruct (dget (domain_as n) f) as [v|]; cbn [negb]; [rewrite andb_false_r; reflexivity|rewrite andb_true_r; reflexivity].
  - cbn [andb]. destruct (dn_rr n); [|reflexivity]. apply dget_dset_other. exact Q.
Qed.

Definition has (p : dnode -> bool) (k : string) (l : list dnode) : bool := existsb (fun n => dn_bgp n && String.eqb k (domain_as n) && p n) l.

Lemma flags_get : forall nodes l k, dget k (fold_left (node_flags nodes) l []) =
  if has dn_rr k l then Some true else if has (bad nodes) k l then Some false else None.
Proof.
  intros nodes l k. induction l as [|n l IH] using rev_ind; [reflexivity|]. rewrite fold_left_app. cbn [fold_left]. rewrite node_flags_get, IH.
  unfold has. rewrite !existsb_app. cbn [existsb]. rewrite !orb_false_r. fold (has dn_rr k l). fold (has (bad nodes) k l).
  rewrite (andb_comm (dn_bgp n)). destruct (String.eqb k (domain_as n) && dn_bgp n); cbn [andb]; [|rewrite !orb_false_r; reflexivity].
  destruct (dn_rr n); [rewrite orb_true_r; reflexivity|]. rewrite orb_false_r. destruct (has dn_rr k l); [reflexivity|].
  destruct (has (bad nodes) k l); [reflexivity|]. cbn [orb]. reflexivity.
Qed.

Lemma NoDup_flags : forall nodes l, NoDup (dkeys (fold_left (node_flags nodes) l [])).
Proof.
  intros nodes l. induction l as [|n l IH] using rev_ind; [constructor|]. rewrite fold_left_app. cbn [fold_left].
  set (f := fold_left (node_flags nodes) l []) in *. clearbody f. unfold node_flags. destruct (dn_bgp n); [|exact IH].
  assert (K : NoDup (dkeys (if dn_rr n then dset (domain_as n) true f else f))) by (destruct (dn_rr n); [apply NoDup_dset|]; exact IH).
  revert K. generalize (if dn_rr n then dset (domain_as n) true f else f). generalize (dn_ngb n) as gs. induction gs as [|g gs IHg]; intros q K; cbn [fold_left]; [exact K|].
  apply IHg. destruct (is_cross nodes n g && dg_rr g && negb (dmem (domain_as n) q)); [apply NoDup_dset|]; exact K.
Qed.

Lemma domain_as_inj : forall n m, (0 <= dn_as n)%Z -> (0 <= dn_as m)%Z -> domain_as n = domain_as m <-> domain n = domain m /\ dn_as n = dn_as m.
Proof.
  assert (NC : forall z, (0 <= z)%Z -> no_char ":" (Vrf_Model.zdec z)).
  { intros z Z. apply Types_Props.digits_no; [reflexivity|]. apply Version_Props.zdec_digits. exact Z. }
  assert (NA : forall b y x, no_char ":" x -> x <> (b ++ String ":" y)%string).
  { induction b as [|c b IHb]; intros y x N E; subst x; cbn [append] in N; apply no_char_cons in N; [exact (proj1 N eq_refl)|exact (IHb _ _ (proj2 N) eq_refl)]. }
  assert (LC : forall a b x y, no_char ":" x -> no_char ":" y -> (a ++ String ":" x)%string = (b ++ String ":" y)%string -> a = b /\ x = y).
  { induction a as [|c a IHa]; intros [|c' b] x y X Y E; cbn [append] in E.
    - injection E as E. split; [reflexivity|exact E].
    - injection E as E1 E2. exfalso. exact (NA _ _ _ X E2).
    - injection E as E1 E2. exfalso. exact (NA _ _ _ Y (eq_sym E2)).
    - injection E as E1 E2. destruct (IHa b x y X Y E2) as [H1 H2]. subst. split; reflexivity. }
  intros n m N M. unfold domain_as. split.
  - intros H. apply LC in H; [|apply NC; exact N|apply NC; exact M]. destruct H as [H1 H2]. split; [exact H1|]. apply Vrf_Props.zdec_inj. exact H2.
  - intros [H1 H2]. rewrite H1, H2. reflexivity.
Qed.

Lemma flags_spec : forall nodes, proper nodes -> forall k, dget k (rr_flags nodes) = Some false <->
  exists d z, (0 <= z)%Z /\ k = (d ++ String ":" (Vrf_Model.zdec z))%string /\ lost nodes d z.
Proof.
  intros nodes P k. unfold rr_flags. rewrite flags_get.
  assert (HS : forall p, has p k (map snd nodes) = true <-> exists x n, In (x, n) nodes /\ dn_bgp n = true /\ k = domain_as n /\ p n = true).
  { intros p. unfold has. rewrite existsb_exists. split.
    - intros [n [I H]]. apply in_map_iff in I. destruct I as [[x n'] [E I]]. cbn [snd] in E. subst n'. apply andb_true_iff in H. destruct H as [H H3].
      apply andb_true_iff in H. destruct H as [H1 H2]. apply String.eqb_eq in H2. exists x, n. repeat split; assumption.
    - intros [x [n [I [H1 [H2 H3]]]]]. exists n. split; [apply in_map_iff; exists (x, n); split; [reflexivity|exact I]|]. rewrite H1, H3. subst k. rewrite String.eqb_refl. reflexivity. }
  assert (BD : forall x n, In (x, n) nodes -> (bad nodes n = true <-> exists g, In g (dn_ngb n) /\ crosses nodes n g /\ dg_rr g = true)).
  { intros x n I. unfold bad. rewrite existsb_exists. split.
    - intros [g [G H]]. apply andb_true_iff in H. destruct H as [H1 H2]. exists g. split; [exact G|]. split; [|exact H2]. apply cross_iff in H1; [exact H1|].
      exact (proj2 (proj2 P x n I) g G).
    - intros [g [G [H1 H2]]]. exists g. split; [exact G|]. rewrite H2, andb_true_r. apply cross_iff; [|exact H1]. exact (proj2 (proj2 P x n I) g G). }
  split.
  - intros H. destruct (has dn_rr k (map snd nodes)) eqn:R; [discriminate H|]. destruct (has (bad nodes) k (map snd nodes)) eqn:B; [|discriminate H].
    apply HS in B. destruct B as [x [n [I [T [K B]]]]]. apply (BD x n I) in B. destruct B as [g [G [C Q]]].
    exists (domain n), (dn_as n). split; [exact (proj1 (proj2 P x n I))|]. split; [exact K|]. split.
    + exists x, n, g. split; [exact I|]. split; [exact T|]. split; [apply in_domain_iff; reflexivity|]. repeat split; try assumption; apply C.
    + intros [y [m [J [TM [D [A RR]]]]]]. apply not_true_iff_false in R. apply R. apply HS. exists y, m. split; [exact J|]. split; [exact TM|]. split; [|exact RR].
      rewrite K. apply domain_as_inj; [exact (proj1 (proj2 P x n I))|exact (proj1 (proj2 P y m J))|]. apply in_domain_iff in D. split; [symmetry; exact D|symmetry; exact A].
  - intros [d [z [Z [K [[x [n [g [I [T [D [A [G [C Q]]]]]]]]] NR]]]]].
    assert (KN : k = domain_as n) by (unfold domain_as; apply in_domain_iff in D; rewrite D, A; exact K).
    assert (B : has (bad nodes) k (map snd nodes) = true).
    { apply HS. exists x, n. split; [exact I|]. split; [exact T|]. split; [exact KN|]. apply (BD x n I). exists g. repeat split; try assumption; apply C. }
    rewrite B. destruct (has dn_rr k (map snd nodes)) eqn:R; [|reflexivity]. exfalso. apply NR. apply HS in R. destruct R as [y [m [J [TM [KM RR]]]]].
    exists y, m. split; [exact J|]. split; [exact TM|]. rewrite KN in KM. apply domain_as_inj in KM; [|exact (proj1 (proj2 P x n I))|exact (proj1 (proj2 P y m J))].
    destruct KM as [E1 E2]. split; [apply in_domain_iff; rewrite <- E1; apply in_domain_iff; exact D|]. split; [rewrite <- E2; exact A|exact RR].
Qed.

Lemma split_nc : forall s, no_char ":" s -> split ":" s = [s].
Proof.
  induction s as [|c s IH]; intros N; [reflexivity|]. apply no_char_cons in N. destruct N as [N1 N2]. cbn [split].
  destruct (Ascii.eqb_spec c ":") as [Q|Q]; [contradiction|]. rewrite (IH N2). reflexivity.
Qed.

Lemma split_two : forall a b, no_char ":" b -> (no_char ":" a -> split ":" (a ++ String ":" b) = [a; b]) /\ (~ no_char ":" a -> exists x y z r, split ":" (a ++ String ":" b) = x :: y :: z :: r).
Proof.
  intros a b NB. induction a as [|c a [IH1 IH2]].
  - split; [|intros H; exfalso; apply H; intros K; exact K]. intros _. cbn [append split]. rewrite Ascii.eqb_refl, (split_nc b NB). reflexivity.
  - cbn [append split]. split.
    + intros N. apply no_char_cons in N. destruct N as [N1 N2]. destruct (Ascii.eqb_spec c ":") as [Q|Q]; [contradiction|]. rewrite (IH1 N2). reflexivity.
    + intros N. destruct (Ascii.eqb_spec c ":") as [Q|Q].
      * destruct (in_dec ascii_dec ":"%char (list_ascii_of_string a)) as [I|I].
        -- destruct (IH2 (fun K => K I)) as [x [y [z [r E]]]]. rewrite E. exists "", x, y, (z :: r). reflexivity.
        -- rewrite (IH1 I). exists "", a, b, []. reflexivity.
      * destruct IH2 as [x [y [z [r E]]]]; [intros K; apply N; apply no_char_cons; split; assumption|]. rewrite E. exists (String c x), y, z, r. reflexivity.
Qed.

(* Errors: exactly one for every domain of an AS that lost its route reflectors. *)
Theorem domain_errors_exact : forall nodes nodes' errs, proper nodes -> bgp_domains nodes = (nodes', Some errs) ->
  NoDup errs /\ forall d a, In (d, a) errs <-> exists z, (0 <= z)%Z /\ a = Vrf_Model.zdec z /\ lost nodes d z.
Proof.
  intros nodes nodes' errs P H. unfold bgp_domains in H. injection H as _ H.
  pose proof (flags_spec nodes P) as FS. pose proof (NoDup_flags nodes (map snd nodes)) as ND. fold (rr_flags nodes) in ND. set (f := rr_flags nodes) in *. clearbody f.
  assert (NC : forall z, (0 <= z)%Z -> no_char ":" (Vrf_Model.zdec z)).
  { intros z Z. apply Types_Props.digits_no; [reflexivity|]. apply Version_Props.zdec_digits. exact Z. }
  assert (SH : forall k, In (k, false) f -> exists d z, (0 <= z)%Z /\ k = (d ++ String ":" (Vrf_Model.zdec z))%string).
  { intros k I. apply (dget_NoDup _ _ _ ND) in I. apply FS in I. destruct I as [d [z [Z [K _]]]]. exists d, z. split; assumption. }
  assert (G : NoDup errs /\ forall d a, In (d, a) errs <-> exists z, (0 <= z)%Z /\ a = Vrf_Model.zdec z /\ In ((d ++ String ":" (Vrf_Model.zdec z))%string, false) f).
  { clear FS. revert errs H. induction f as [|[k v] f IH]; intros errs H; cbn [flag_errors] in H.
    - injection H as H. subst. split; [constructor|]. intros d a. split; [intros []|intros [z [_ [_ []]]]].
    - cbn [dkeys map fst] in ND. apply NoDup_cons_iff in ND. destruct ND as [NK ND]. specialize (IH ND (fun k I => SH k (or_intror I))). destruct v.
      + destruct (IH errs H) as [A B]. split; [exact A|]. intros d a. rewrite B. split; intros [z [Z [E I]]]; exists z; (split; [exact Z|]); (split; [exact E|]).
        * right. exact I.
        * destruct I as [I|I]; [discriminate I|exact I].
      + destruct (SH k (or_introl eq_refl)) as [d0 [z0 [Z0 K0]]].
        destruct (in_dec ascii_dec ":"%char (list_ascii_of_string d0)) as [I|I].
        * destruct (proj2 (split_two d0 (Vrf_Model.zdec z0) (NC z0 Z0)) (fun K => K I)) as [x [y [z [r E]]]]. rewrite K0, E in H. discriminate H.
        * rewrite K0 in H. rewrite (proj1 (split_two d0 (Vrf_Model.zdec z0) (NC z0 Z0)) I) in H. destruct (flag_errors f) as [l|]; [|discriminate H]. injection H as H. subst errs.
          destruct (IH l eq_refl) as [A B]. split.
          -- constructor; [|exact A]. intros J. apply B in J. destruct J as [z [Z [E J]]]. apply Vrf_Props.zdec_inj in E. subst z. apply NK. rewrite K0. apply in_map_iff.
             exists ((d0 ++ String ":" (Vrf_Model.zdec z0))%string, false). split; [reflexivity|exact J].
          -- intros d a. cbn [In]. rewrite B. split.
             ++ intros [J|[z [Z [E J]]]]; [injection J as J1 J2; subst d a; exists z0; split; [exact Z0|]; split; [reflexivity|left; rewrite K0; reflexivity]|].
                exists z. split; [exact Z|]. split; [exact E|right; exact J].
             ++ intros [z [Z [E [J|J]]]]; [|right; exists z; repeat split; assumption]. left. injection J as J. rewrite K0 in J.
                pose proof (proj1 (domain_as_inj (mk_dn true (Some d0) z0 true []) (mk_dn true (Some d) z true []) Z0 Z)) as Q. unfold domain_as in Q. cbn [domain dn_domain dn_as] in Q.
                destruct (Q J) as [Q1 Q2]. subst. reflexivity. }
  destruct G as [A B]. split; [exact A|]. intros d a. rewrite B. split; intros [z [Z [E I]]]; exists z; (split; [exact Z|]); (split; [exact E|]).
  - apply (dget_NoDup _ _ _ ND) in I. apply FS in I. destruct I as [d' [z' [Z' [K L]]]].
    pose proof (proj1 (domain_as_inj (mk_dn true (Some d) z true []) (mk_dn true (Some d') z' true []) Z Z')) as Q. unfold domain_as in Q. cbn [domain dn_domain dn_as] in Q.
    destruct (Q K) as [Q1 Q2]. subst. exact L.
  - apply dget_In. apply FS. exists d, z. repeat split; try assumption; apply I.
Qed.

(* The plugin crashes exactly when such a domain has a colon in its name. *)
Theorem domain_crash_iff : forall nodes, proper nodes ->
  (snd (bgp_domains nodes) = None <-> exists d z, (0 <= z)%Z /\ lost nodes d z /\ ~ no_char ":" d).
Proof.
  intros nodes P. unfold bgp_domains. cbn [snd].
  pose proof (flags_spec nodes P) as FS. pose proof (NoDup_flags nodes (map snd nodes)) as ND. fold (rr_flags nodes) in ND. set (f := rr_flags nodes) in *. clearbody f.
  assert (NC : forall z, (0 <= z)%Z -> no_char ":" (Vrf_Model.zdec z)).
  { intros z Z. apply Types_Props.digits_no; [reflexivity|]. apply Version_Props.zdec_digits. exact Z. }
  assert (FE : (forall k, In (k, false) f -> exists d z, (0 <= z)%Z /\ k = (d ++ String ":" (Vrf_Model.zdec z))%string) ->
     (flag_errors f = None <-> exists d z, (0 <= z)%Z /\ In ((d ++ String ":" (Vrf_Model.zdec z))%string, false) f /\ ~ no_char ":" d)).
  { clear FS ND. induction f as [|[k v] f IH]; intros SH; cbn [flag_errors].
    - split; [discriminate|]. intros [d [z [_ [[] _]]]].
    - specialize (IH (fun k I => SH k (or_intror I))). destruct v.
      + rewrite IH. split; intros [d [z [Z [I N]]]]; exists d, z; (split; [exact Z|]); (split; [|exact N]); [right; exact I|destruct I as [I|I]; [discriminate I|exact I]].
      + destruct (SH k (or_introl eq_refl)) as [d0 [z0 [Z0 K0]]]. subst k. destruct (in_dec ascii_dec ":"%char (list_ascii_of_string d0)) as [I|I].
        * destruct (proj2 (split_two d0 (Vrf_Model.zdec z0) (NC z0 Z0)) (fun K => K I)) as [x [y [z [r E]]]]. rewrite E. split; [intros _|reflexivity].
          exists d0, z0. split; [exact Z0|]. split; [left; reflexivity|exact (fun K => K I)].
        * rewrite (proj1 (split_two d0 (Vrf_Model.zdec z0) (NC z0 Z0)) I). destruct (flag_errors f) as [l|].
          -- split; [discriminate|]. intros [d [z [Z [[J|J] N]]]].
             ++ injection J as J. pose proof (proj1 (domain_as_inj (mk_dn true (Some d0) z0 true []) (mk_dn true (Some d) z true []) Z0 Z)) as Q.
                unfold domain_as in Q. cbn [domain dn_domain dn_as] in Q. destruct (Q J) as [Q1 Q2]. subst. contradiction.
             ++ destruct IH as [_ IH]. assert (K : Some l = None) by (apply IH; exists d, z; split; [exact Z|]; split; [exact J|exact N]). discriminate K.
          -- split; [intros _|reflexivity]. destruct (proj1 IH eq_refl) as [d [z [Z [J N]]]]. exists d, z. split; [exact Z|]. split; [right; exact J|exact N]. }
  rewrite FE.
  - split; intros [d [z [Z [I N]]]]; exists d, z; (split; [exact Z|]).
    + split; [|exact N]. apply (dget_NoDup _ _ _ ND) in I. apply FS in I. destruct I as [d' [z' [Z' [K L]]]].
      pose proof (proj1 (domain_as_inj (mk_dn true (Some d) z true []) (mk_dn true (Some d') z' true []) Z Z')) as Q. unfold domain_as in Q. cbn [domain dn_domain dn_as] in Q.
      destruct (Q K) as [Q1 Q2]. subst. exact L.
    + split; [|exact N]. apply dget_In. apply FS. exists d, z. split; [exact Z|]. split; [reflexivity|exact I].
  - intros k I. apply (dget_NoDup _ _ _ ND) in I. apply FS in I. destruct I as [d [z [Z [K _]]]]. exists d, z. split; assumption.
Qed.

(* ------------------------------------------------------------------ *)
(* Refuted: a domain can have any name. *)
Theorem domain_name_refuted :
  let c := mk_dn true (Some "y") 65000 true [] in
  let a d := mk_dn true (Some d) 65000 false [mk_dg "c" "ibgp" true] in
  snd (bgp_domains [("a", a "x:1"); ("c", c)]) = None /\ snd (bgp_domains [("a", a "x"); ("c", c)]) = Some [("x", "65000")].
Proof. split; reflexivity. Qed.

Definition x_dom : dict dnode :=
  [("a", mk_dn true (Some "x") 65000 false [mk_dg "b" "ibgp" false; mk_dg "c" "ibgp" true; mk_dg "c" "ebgp" false]);
   ("b", mk_dn true (Some "x") 65000 false [mk_dg "a" "ibgp" false; mk_dg "c" "ibgp" true]);
   ("c", mk_dn true None 65000 true [mk_dg "a" "ibgp" false; mk_dg "b" "ibgp" false]);
   ("d", mk_dn false None 1 false [])].

Example x_domains :
  bgp_domains x_dom =
  ([("a", mk_dn true (Some "x") 65000 false [mk_dg "b" "ibgp" false; mk_dg "c" "ebgp" false]);
    ("b", mk_dn true (Some "x") 65000 false [mk_dg "a" "ibgp" false]);
    ("c", mk_dn true None 65000 true []);
    ("d", mk_dn false None 1 false [])], Some [("x", "65000")]).
Proof. reflexivity. Qed.

Example x_proper : proper x_dom.
Proof.
  split.
  - repeat constructor; cbn [In dkeys map fst x_dom]; intros H; repeat (destruct H as [H|H]; [discriminate H|]); exact H.
  - intros x n H. unfold x_dom in H. cbn [In] in H. repeat (destruct H as [H|H]; [injection H as H1 H2; subst x n; cbn [dn_as dn_ngb]; split; [lia|]; intros g G; cbn [In] in G; repeat (destruct G as [G|G]; [subst g; intros _; discriminate|]); destruct G|]). destruct H.
Qed.

Print Assumptions domain_sessions_exact.
Print Assumptions domain_sessions_symmetric.
Print Assumptions domain_errors_exact.
Print Assumptions domain_crash_iff.
Print Assumptions domain_name_refuted.
