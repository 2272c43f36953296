(* Properties C183-C186: prefixes advertised into BGP, BGP address families, community keywords, EBGP roles of VLANs. *)
From Coq Require Import String Ascii ZArith Lia Bool List.
From Verif Require Import Base Box_Model Box_Props Adv_Model.
From Verif Require Clone_Model Clone_Props Bgp_Model Bgp_Props.
Import ListNotations.
Local Open Scope string_scope.
Local Open Scope list_scope.

(* ------------------------------------------------------------------ *)
(* Advertised prefixes                                                  *)

Section Advertise.
Variable nodes : string -> anode.
Variable roles : list string.
Variable loops : bool.

(* the type or the role of an interface is an advertised role *)
Definition candidate (i : aintf) : Prop := exists r, In r roles /\ (ai_type i = Some r \/ ai_role i = Some r).

(* all neighbors are hosts that run no routing daemons *)
Definition hosts_only (i : aintf) : Prop := forall n, In n (ai_ngb i) -> an_daemon (nodes n) = false /\ an_role (nodes n) = "host".

(* BGP is disabled, or the attribute is set *)
Definition decided (i : aintf) : Prop := ai_bgp i = BgpOff \/ exists d v, ai_bgp i = BgpData d /\ dget "advertise" d = Some v.

Definition bgp_attr (i : aintf) (a : string) : option val := match ai_bgp i with BgpData d => dget a d | _ => None end.

(* the value to set *)
Definition advertises (i : aintf) (b : bool) : Prop :=
  (candidate i /\ (b = true <-> (ai_role i = Some "stub" -> hosts_only i))) \/
  (~ candidate i /\ ai_type i = Some "loopback" /\ loops = true /\ b = true).

Definition advertised (i i' : aintf) : Prop :=
  (ai_type i' = ai_type i /\ ai_role i' = ai_role i /\ ai_ngb i' = ai_ngb i /\ ai_af i' = ai_af i /\ ai_vrf i' = ai_vrf i) /\
  (forall a, a <> "advertise" -> bgp_attr i' a = bgp_attr i a) /\
  (decided i -> i' = i) /\
  (~ decided i -> (forall v, bgp_attr i' "advertise" = Some v <-> exists b, v = VBool b /\ advertises i b) /\ ((forall b, ~ advertises i b) -> i' = i)).

Lemma in_roles_iff : forall x, in_roles roles x = true <-> exists r, In r roles /\ x = Some r.
Proof.
  intros [s|]; unfold in_roles.
  - rewrite memS_true. split; [intros H; exists s; split; [exact H|reflexivity]|intros [r [H E]]; injection E as E; subst r; exact H].
  - split; [discriminate|intros [r [_ E]]; discriminate E].
Qed.

Lemma candidate_iff : forall i, in_roles roles (ai_type i) || in_roles roles (ai_role i) = true <-> candidate i.
Proof.
  intros i. rewrite orb_true_iff, !in_roles_iff. unfold candidate. split.
  - intros [[r [I E]]|[r [I E]]]; exists r; (split; [exact I|]); [left|right]; exact E.
  - intros [r [I [E|E]]]; [left|right]; exists r; split; assumption.
Qed.

Lemma true_stub_iff : forall i, true_stub nodes i = true <-> hosts_only i.
Proof.
  intros i. unfold true_stub, hosts_only. rewrite forallb_forall. split; intros H n I; specialize (H n I).
  - apply negb_true_iff, orb_false_iff in H. destruct H as [H1 H2]. split; [exact H1|]. apply negb_false_iff, String.eqb_eq in H2. exact H2.
  - destruct H as [H1 H2]. rewrite H1, H2. reflexivity.
Qed.

Lemma dset_attr : forall i v a, bgp_attr (set_bgp (BgpData (dset "advertise" v (bgp_data (ai_bgp i)))) i) a = if String.eqb a "advertise" then Some v else bgp_attr i a.
Proof.
  intros i v a. unfold bgp_attr, set_bgp. cbn [ai_bgp]. destruct (String.eqb_spec a "advertise") as [Q|Q]; [subst a; apply dget_dset_same|]. rewrite dget_dset_other by exact Q.
  unfold bgp_data. destruct (ai_bgp i); reflexivity.
Qed.

Lemma advertised_same : forall i, (~ decided i -> forall b, ~ advertises i b) -> bgp_attr i "advertise" = None \/ decided i -> advertised i i.
Proof.
  intros i N B. split; [repeat split; reflexivity|]. split; [reflexivity|]. split; [reflexivity|]. intros D. split; [|reflexivity]. intros v. destruct B as [B|B]; [|contradiction]. rewrite B. split; [discriminate|].
  intros [b [_ K]]. exfalso. exact (N D b K).
Qed.

Lemma advertised_set : forall i b, ~ decided i -> advertises i b -> (forall c, advertises i c -> c = b) -> advertised i (set_bgp (BgpData (dset "advertise" (VBool b) (bgp_data (ai_bgp i)))) i).
Proof.
  intros i b D A U. split; [repeat split; reflexivity|]. split; [|split].
  - intros a N. rewrite dset_attr. apply String.eqb_neq in N. rewrite N. reflexivity.
  - intros K. contradiction.
  - intros _. split.
    + intros v. rewrite dset_attr. cbn. split; [intros K; injection K as K; exists b; split; [symmetry; exact K|exact A]|intros [c [E K]]; subst v; rewrite (U c K); reflexivity].
    + intros K. exfalso. exact (K b A).
Qed.

Lemma candidate_value : forall i b c, candidate i -> (b = true <-> (ai_role i = Some "stub" -> hosts_only i)) -> advertises i c -> c = b.
Proof.
  intros i b c C B [[_ K]|[K _]]; [|contradiction]. destruct b; destruct c; try reflexivity.
  - apply K. apply B. reflexivity.
  - symmetry. apply B. apply K. reflexivity.
Qed.

Theorem advertise_exact : forall l, Forall2 advertised l (set_advertise nodes roles loops l).
Proof.
  intros l. unfold set_advertise. induction l as [|i l IH]; [constructor|]. cbn [map]. constructor; [|exact IH]. clear IH l. unfold advertise_intf.
  assert (U : ai_bgp i <> BgpOff -> dmem "advertise" (bgp_data (ai_bgp i)) = false -> ~ decided i).
  { intros N M [K|[d [v [K1 K2]]]]; [contradiction|]. rewrite K1 in M. cbn [bgp_data] in M. unfold dmem in M. rewrite K2 in M. discriminate M. }
  assert (W : dmem "advertise" (bgp_data (ai_bgp i)) = true -> decided i).
  { intros M. unfold bgp_data in M. destruct (ai_bgp i) as [| |d] eqn:E; [discriminate M|discriminate M|]. right. unfold dmem in M. destruct (dget "advertise" d) as [v|] eqn:V; [exists d, v; split; [exact E|exact V]|discriminate M]. }
  assert (MAIN : ai_bgp i <> BgpOff -> advertised i
    (if dmem "advertise" (bgp_data (ai_bgp i)) then i
     else if in_roles roles (ai_type i) || in_roles roles (ai_role i) then
       set_bgp (BgpData (dset "advertise" (VBool (match ai_role i with Some s => if String.eqb s "stub" then true_stub nodes i else true | None => true end)) (bgp_data (ai_bgp i)))) i
     else match ai_type i with
          | Some t => if String.eqb t "loopback" && loops then set_bgp (BgpData (dset "advertise" (VBool true) (bgp_data (ai_bgp i)))) i else i
          | None => i
          end)).
  { intros N. destruct (dmem "advertise" (bgp_data (ai_bgp i))) eqn:M.
    { apply advertised_same; [intros D; exfalso; exact (D (W eq_refl))|right; exact (W eq_refl)]. }
    specialize (U N eq_refl). clear W.
    assert (NB : bgp_attr i "advertise" = None).
    { unfold bgp_attr. unfold bgp_data in M. destruct (ai_bgp i) as [| |d]; [reflexivity|reflexivity|]. unfold dmem in M. destruct (dget "advertise" d); [discriminate M|reflexivity]. }
    destruct (in_roles roles (ai_type i) || in_roles roles (ai_role i)) eqn:C.
    - apply candidate_iff in C. set (b := match ai_role i with Some s => if String.eqb s "stub" then true_stub nodes i else true | None => true end).
      assert (B : b = true <-> (ai_role i = Some "stub" -> hosts_only i)).
      { unfold b. destruct (ai_role i) as [s|]; [|split; [intros _ K; discriminate K|reflexivity]]. destruct (String.eqb_spec s "stub") as [Q|Q]; [subst s; rewrite true_stub_iff; split; [intros K _; exact K|intros K; exact (K eq_refl)]|].
        split; [intros _ K; injection K as K; contradiction|reflexivity]. }
      clearbody b. apply advertised_set; [exact U|left; split; assumption|]. intros c. apply candidate_value; assumption.
    - assert (NC : ~ candidate i) by (intros K; apply candidate_iff in K; rewrite C in K; discriminate K).
      destruct (ai_type i) as [t|] eqn:T.
      + destruct (String.eqb t "loopback" && loops) eqn:L.
        * apply andb_true_iff in L. destruct L as [L1 L2]. apply String.eqb_eq in L1. subst t. apply advertised_set; [exact U|right; repeat (split; [first [assumption|reflexivity]|]); reflexivity|]. intros c [[K _]|[_ [_ [_ K]]]]; [contradiction|exact K].
        * apply advertised_same; [|left; exact NB]. intros _ b [[K _]|[_ [K1 [K2 _]]]]; [contradiction|]. rewrite T in K1. injection K1 as K1. subst t. rewrite K2 in L. discriminate L.
      + apply advertised_same; [|left; exact NB]. intros _ b [[K _]|[_ [K1 _]]]; [contradiction|]. rewrite T in K1. discriminate K1. }
  destruct (ai_bgp i) as [| |d] eqn:E.
  - cbv zeta. apply MAIN. discriminate.
  - apply advertised_same; [intros D; exfalso; apply D; left; exact E|right; left; exact E].
  - cbv zeta. apply MAIN. discriminate.
Qed.
End Advertise.

(* ------------------------------------------------------------------ *)
(* Address families                                                     *)

Definition value_set (k : string) (d : dict val) : Prop := exists v, dget k d = Some v /\ truthy v = true.

Lemma flag_iff : forall k d, flag k d = true <-> value_set k d.
Proof.
  intros k d. unfold flag, value_set. destruct (dget k d) as [v|]; [split; [intros H; exists v; split; [reflexivity|exact H]|intros [w [E H]]; injection E as E; subst w; exact H]|split; [discriminate|intros [v [E _]]; discriminate E]].
Qed.

(* an advertised prefix of the global routing table *)
Definition global_prefix (af : string) (i : aintf) : Prop :=
  value_set af (ai_af i) /\ (exists d, ai_bgp i = BgpData d /\ value_set "advertise" d) /\ ai_vrf i = false.

Definition needs_af (n : onode) (af : string) : Prop :=
  ((forall v, on_loops n = Some v -> truthy v = true) /\ In af (on_lb n)) \/ exists i, In i (on_intf n) /\ global_prefix af i.

Lemma active_iff : forall af i, intf_active af i = true <-> global_prefix af i.
Proof.
  intros af i. unfold intf_active, global_prefix. rewrite !andb_true_iff, !flag_iff, negb_true_iff. split.
  - intros [[H1 H2] H3]. split; [exact H1|]. split; [|exact H3]. unfold bgp_data in H2. destruct (ai_bgp i) as [| |d]; [destruct H2 as [v [K _]]; discriminate K|destruct H2 as [v [K _]]; discriminate K|exists d; split; [reflexivity|exact H2]].
  - intros [H1 [[d [E H2]] H3]]. rewrite E. cbn [bgp_data]. split; [split; assumption|exact H3].
Qed.

Lemma orig_flag_spec : forall n flags af, 
  (forall k, k <> af -> dget k (orig_flag n flags af) = dget k flags) /\
  (dget af (orig_flag n flags af) = dget af flags \/ dget af (orig_flag n flags af) = Some (VBool true)) /\
  (value_set af (orig_flag n flags af) <-> value_set af flags \/ needs_af n af).
Proof.
  intros n flags af. unfold orig_flag. destruct (flag af flags) eqn:F.
  { split; [reflexivity|]. split; [left; reflexivity|]. apply flag_iff in F. split; [intros K; left; exact K|intros _; exact F]. }
  assert (NF : ~ value_set af flags) by (intros K; apply flag_iff in K; rewrite F in K; discriminate K). clear F.
  assert (SET : needs_af n af -> (forall k, k <> af -> dget k (dset af (VBool true) flags) = dget k flags) /\
    (dget af (dset af (VBool true) flags) = dget af flags \/ dget af (dset af (VBool true) flags) = Some (VBool true)) /\ (value_set af (dset af (VBool true) flags) <-> value_set af flags \/ needs_af n af)).
  { intros N. split; [intros k Q; apply dget_dset_other; exact Q|]. split; [right; apply dget_dset_same|]. split; [intros _; right; exact N|]. intros _. exists (VBool true). split; [apply dget_dset_same|reflexivity]. }
  destruct (match on_loops n with Some v => truthy v | None => true end) eqn:L; cbn [andb].
  - assert (LP : forall v, on_loops n = Some v -> truthy v = true) by (intros v E; rewrite E in L; exact L).
    destruct (memS af (on_lb n)) eqn:M; [apply SET; left; split; [exact LP|apply memS_true; exact M]|]. apply memS_false in M.
    destruct (existsb (intf_active af) (on_intf n)) eqn:X.
    + apply SET. right. apply existsb_exists in X. destruct X as [i [I K]]. exists i. split; [exact I|apply active_iff; exact K].
    + split; [reflexivity|]. split; [left; reflexivity|]. split; [intros K; left; exact K|]. intros [K|[[_ K]|[i [I K]]]]; [exact K|contradiction|]. exfalso. apply active_iff in K. assert (E : existsb (intf_active af) (on_intf n) = true) by (apply existsb_exists; exists i; split; assumption). rewrite X in E. discriminate E.
  - destruct (existsb (intf_active af) (on_intf n)) eqn:X.
    + apply SET. right. apply existsb_exists in X. destruct X as [i [I K]]. exists i. split; [exact I|apply active_iff; exact K].
    + split; [reflexivity|]. split; [left; reflexivity|]. split; [intros K; left; exact K|]. intros [K|[[K _]|[i [I K]]]]; [exact K| |].
      * exfalso. destruct (on_loops n) as [v|]; [rewrite (K v eq_refl) in L; discriminate L|discriminate L].
      * exfalso. apply active_iff in K. assert (E : existsb (intf_active af) (on_intf n) = true) by (apply existsb_exists; exists i; split; assumption). rewrite X in E. discriminate E.
Qed.

(* Originated prefixes and address family flags. *)
Theorem originate_af_exact : forall pfx n n' errs, originate pfx n = (n', errs) ->
  (on_loops n' = on_loops n /\ on_lb n' = on_lb n /\ on_intf n' = on_intf n) /\
  Forall2 (fun o o' => (forall v, dget o pfx = Some (Some v) -> o' = v) /\ ((forall v, dget o pfx <> Some (Some v)) -> o' = o)) (on_orig n) (on_orig n') /\
  (forall o, In o errs <-> In o (on_orig n) /\ dget o pfx = Some None) /\
  (forall af, af = "ipv4" \/ af = "ipv6" -> (value_set af (on_flags n') <-> value_set af (on_flags n) \/ (af = "ipv4" /\ on_orig n <> []) \/ needs_af n af) /\
     (dget af (on_flags n') = dget af (on_flags n) \/ dget af (on_flags n') = Some (VBool true))) /\
  (forall k, k <> "ipv4" -> k <> "ipv6" -> dget k (on_flags n') = dget k (on_flags n)).
Proof.
  intros pfx n n' errs H. unfold originate in H. set (fl := match on_orig n with [] => on_flags n | _ => dset "ipv4" (VBool true) (on_flags n) end) in H. cbn [fold_left] in H. injection H as H1 H2. subst n' errs. cbn [on_loops on_lb on_intf on_orig on_flags].
  destruct (orig_flag_spec n fl "ipv4") as [A1 [A2 A3]]. set (f1 := orig_flag n fl "ipv4") in *. clearbody f1. destruct (orig_flag_spec n f1 "ipv6") as [B1 [B2 B3]]. set (f2 := orig_flag n f1 "ipv6") in *. clearbody f2.
  assert (F4 : (value_set "ipv4" fl <-> value_set "ipv4" (on_flags n) \/ on_orig n <> []) /\ (dget "ipv4" fl = dget "ipv4" (on_flags n) \/ dget "ipv4" fl = Some (VBool true)) /\ forall k, k <> "ipv4" -> dget k fl = dget k (on_flags n)).
  { unfold fl. destruct (on_orig n) as [|o r]; [split; [split; [intros K; left; exact K|intros [K|K]; [exact K|exfalso; apply K; reflexivity]]|]; split; [left; reflexivity|reflexivity]|].
    split; [split; [intros _; right; discriminate|intros _; exists (VBool true); split; [apply dget_dset_same|reflexivity]]|]. split; [right; apply dget_dset_same|]. intros k K. apply dget_dset_other. exact K. }
  clearbody fl. destruct F4 as [C1 [C2 C3]]. split; [repeat split; reflexivity|]. split; [|split; [|split]].
  - clear. induction (on_orig n) as [|o l IH]; [constructor|]. cbn [map]. constructor; [|exact IH]. unfold orig_value. destruct (dget o pfx) as [[v|]|]; split.
    + intros w E. injection E as E. exact E.
    + intros K. exfalso. exact (K v eq_refl).
    + intros w E. discriminate E.
    + reflexivity.
    + intros w E. discriminate E.
    + reflexivity.
  - intros o. rewrite in_flat_map. unfold orig_error. split.
    + intros [x [I K]]. destruct (dget x pfx) as [[v|]|] eqn:D; [destruct K| |destruct K]. destruct K as [K|[]]. subst x. split; [exact I|exact D].
    + intros [I D]. exists o. split; [exact I|]. rewrite D. left. reflexivity.
  - intros af [E|E]; subst af.
    + assert (E4 : dget "ipv4" f2 = dget "ipv4" f1) by (apply B1; discriminate). split.
      * assert (VV : value_set "ipv4" f2 <-> value_set "ipv4" f1) by (unfold value_set; rewrite E4; reflexivity). rewrite VV, A3, C1. split; [intros [[K|K]|K]; [left; exact K|right; left; split; [reflexivity|exact K]|right; right; exact K]|intros [K|[[_ K]|K]]; [left; left; exact K|left; right; exact K|right; exact K]].
      * rewrite E4. destruct A2 as [A2|A2]; [rewrite A2; exact C2|right; exact A2].
    + assert (E6 : dget "ipv6" f1 = dget "ipv6" (on_flags n)) by (rewrite A1 by discriminate; apply C3; discriminate). split.
      * assert (VV : value_set "ipv6" f1 <-> value_set "ipv6" (on_flags n)) by (unfold value_set; rewrite E6; reflexivity). rewrite B3, VV. split; [intros [K|K]; [left; exact K|right; right; exact K]|intros [K|[[K _]|K]]; [left; exact K|discriminate K|right; exact K]].
      * rewrite <- E6. exact B2.
  - intros k K4 K6. rewrite B1 by exact K6. rewrite A1 by exact K4. apply C3. exact K4.
Qed.

(* ------------------------------------------------------------------ *)
(* Community keywords                                                   *)

(* device keywords of a keyword *)
Definition device_kw (table : dict val) (kw : string) (part : list val) : Prop :=
  (~ In kw (dkeys table) /\ part = []) \/
  (exists v, dget kw table = Some v /\
     ((v = VBool false /\ part = []) \/ ((v = VNull \/ v = VBool true) /\ part = [VStr kw]) \/ (exists l, v = VList l /\ part = l) \/
      (v <> VBool false /\ v <> VBool true /\ v <> VNull /\ (forall l, v <> VList l) /\ part = [v]))).

(* the first occurrences of the elements of a list *)
Definition firsts (flat res : list val) : Prop :=
  NoDup res /\ (forall v, In v res <-> In v flat) /\
  forall k v, nth_error res k = Some v -> exists pre post, flat = pre ++ v :: post /\ ~ In v pre /\ forall w, In w (firstn k res) <-> In w pre.

Lemma firsts_add : forall flat res v, firsts flat res -> firsts (flat ++ [v]) (add_new res v).
Proof.
  intros flat res v [N [I F]]. unfold add_new.
  assert (X : existsb (Clone_Model.veqb v) res = true <-> In v res).
  { rewrite existsb_exists. split; [intros [w [J E]]; apply Clone_Props.veqb_true in E; subst w; exact J|intros J; exists v; split; [exact J|apply Clone_Props.veqb_true; reflexivity]]. }
  destruct (existsb (Clone_Model.veqb v) res).
  - assert (J : In v res) by (apply X; reflexivity). split; [exact N|]. split.
    + intros w. rewrite in_app_iff, <- I. cbn [In]. split; [intros K; left; exact K|intros [K|[K|[]]]; [exact K|subst w; exact J]].
    + intros k w E. destruct (F k w E) as [pre [post [P [Q R]]]]. exists pre, (post ++ [v]). split; [rewrite P, <- app_assoc; reflexivity|]. split; assumption.
  - assert (J : ~ In v res) by (intros K; apply X in K; discriminate K). split; [|split].
    + apply NoDup_rev in N. rewrite <- (rev_involutive (res ++ [v])). apply NoDup_rev. rewrite rev_app_distr. cbn [rev app]. constructor; [rewrite <- in_rev; exact J|exact N].
    + intros w. rewrite !in_app_iff, I. reflexivity.
    + intros k w E. destruct (Nat.lt_ge_cases k (length res)) as [L|L].
      * rewrite nth_error_app1 in E by exact L. destruct (F k w E) as [pre [post [P [Q R]]]]. exists pre, (post ++ [v]). split; [rewrite P, <- app_assoc; reflexivity|]. split; [exact Q|]. intros y. rewrite firstn_app. replace (k - length res) with 0 by lia. cbn [firstn]. rewrite app_nil_r. apply R.
      * rewrite nth_error_app2 in E by exact L. destruct (k - length res) as [|m] eqn:D; [|cbn [nth_error] in E; destruct m; discriminate E]. cbn [nth_error] in E. injection E as E. subst w. exists flat, []. split; [reflexivity|]. split; [rewrite <- I; exact J|].
        intros y. assert (K : k = length res) by lia. subst k. rewrite firstn_app, Nat.sub_diag. cbn [firstn]. rewrite app_nil_r, firstn_all. apply I.
Qed.

Lemma firsts_fold : forall l flat res, firsts flat res -> firsts (flat ++ l) (fold_left add_new l res).
Proof.
  intros l. induction l as [|v l IH]; intros flat res F; cbn [fold_left]; [rewrite app_nil_r; exact F|]. replace (flat ++ v :: l) with ((flat ++ [v]) ++ l) by (rewrite <- app_assoc; reflexivity). apply IH. apply firsts_add. exact F.
Qed.

Lemma lookup_kw : forall table kw, device_kw table kw (kw_lookup table kw).
Proof.
  intros table kw. unfold device_kw, kw_lookup. destruct (dget kw table) as [v|] eqn:D.
  - right. exists v. split; [reflexivity|]. destruct v as [|[|]|z|s|l|d].
    + right. left. split; [left; reflexivity|reflexivity].
    + right. left. split; [right; reflexivity|reflexivity].
    + left. split; reflexivity.
    + right. right. right. repeat (split; [first [discriminate|intros l; discriminate]|]). reflexivity.
    + right. right. right. repeat (split; [first [discriminate|intros l; discriminate]|]). reflexivity.
    + right. right. left. exists l. split; reflexivity.
    + right. right. right. repeat (split; [first [discriminate|intros l; discriminate]|]). reflexivity.
  - left. split; [|reflexivity]. apply dget_None. exact D.
Qed.

Lemma kw_transform_spec : forall table kws, exists parts, Forall2 (device_kw table) kws parts /\ firsts (concat parts) (kw_transform table kws).
Proof.
  intros table kws. exists (map (kw_lookup table) kws). split; [induction kws as [|k l IH]; cbn [map]; constructor; [apply lookup_kw|exact IH]|].
  unfold kw_transform. assert (G : forall flat res, firsts flat res -> firsts (flat ++ concat (map (kw_lookup table) kws)) (fold_left (fun acc kw => fold_left add_new (kw_lookup table kw) acc) kws res)).
  { induction kws as [|k l IH]; intros flat res F; cbn [fold_left map concat]; [rewrite app_nil_r; exact F|]. rewrite app_assoc. apply IH. apply firsts_fold. exact F. }
  apply (G [] []). split; [constructor|]. split; [reflexivity|]. intros k v E. destruct k; discriminate E.
Qed.

(* keywords of a session type *)
Definition keywords (clist : dict (list string)) (t : string) (kws : list string) : Prop :=
  dget t clist = Some kws \/
  (dget t clist = None /\ dget "localas_ibgp" clist = None /\
   ((t = "ibgp" /\ kws = []) \/ (t = "localas_ibgp" /\ (dget "ibgp" clist = Some kws \/ dget "ibgp" clist = None /\ kws = [])))).

Lemma dget_map_snd : forall {A B} (f : A -> B) k (d : dict A), dget k (map (fun x => (fst x, f (snd x))) d) = match dget k d with Some v => Some (f v) | None => None end.
Proof.
  intros A B f k d. induction d as [|[x v] d IH]; [reflexivity|]. cbn [map fst snd dget]. destruct (String.eqb k x); [reflexivity|exact IH].
Qed.

(* Device keywords: first occurrences of the translated keywords, IBGP sessions with a local AS use the keywords of IBGP sessions. *)
Theorem community_exact : forall table clist out errs, clist <> [] -> transform_community table clist = (out, errs) ->
  (forall t, In t (dkeys out) <-> exists kws, keywords clist t kws) /\
  (forall t l, dget t out = Some l -> exists kws parts, keywords clist t kws /\ Forall2 (device_kw table) kws parts /\ firsts (concat parts) l) /\
  (forall t kw, In (t, kw) errs <-> exists kws, In (t, kws) clist /\ In kw kws /\ ~ In kw (dkeys table)).
Proof.
  intros table clist out errs N H. unfold transform_community in H. destruct clist as [|c0 clist0] eqn:CL; [exfalso; apply N; reflexivity|]. rewrite <- CL in *. clear CL c0 clist0.
  match type of H with (map _ ?f, _) = _ => set (full := f) in H end. injection H as H1 H2. subst out errs.
  assert (FU : forall t kws, dget t full = Some kws <-> keywords clist t kws).
  { intros t kws. unfold full, keywords. unfold dmem at 1. destruct (dget "localas_ibgp" clist) as [la|] eqn:LA.
    - split; [intros K; left; exact K|intros [K|[_ [K _]]]; [exact K|discriminate K]].
    - unfold dmem. destruct (dget "ibgp" clist) as [ib|] eqn:IB.
      + rewrite IB. destruct (string_dec t "localas_ibgp") as [Q|Q].
        * subst t. rewrite dget_dset_same, LA. split.
          -- intros K. right. split; [reflexivity|]. split; [reflexivity|]. right. split; [reflexivity|]. left. exact K.
          -- intros [K|[_ [_ [[K _]|[_ [K|[K _]]]]]]]; [discriminate K|discriminate K|exact K|discriminate K].
        * rewrite dget_dset_other by exact Q. split; [intros K; left; exact K|]. intros [K|[K1 [_ [[K2 _]|[K2 _]]]]]; [exact K|subst t; rewrite IB in K1; discriminate K1|contradiction].
      + rewrite dget_dset_same. destruct (string_dec t "localas_ibgp") as [Q|Q].
        * subst t. rewrite dget_dset_same, LA. split.
          -- intros K. injection K as K. right. split; [reflexivity|]. split; [reflexivity|]. right. split; [reflexivity|]. right. split; [reflexivity|symmetry; exact K].
          -- intros [K|[_ [_ [[K _]|[_ [K|[_ K]]]]]]]; [discriminate K|discriminate K|discriminate K|subst kws; reflexivity].
        * rewrite dget_dset_other by exact Q. destruct (string_dec t "ibgp") as [R|R].
          -- subst t. rewrite dget_dset_same, IB. split.
             ++ intros K. injection K as K. right. split; [reflexivity|]. split; [reflexivity|]. left. split; [reflexivity|symmetry; exact K].
             ++ intros [K|[_ [_ [[_ K]|[K _]]]]]; [discriminate K|subst kws; reflexivity|contradiction].
          -- rewrite dget_dset_other by exact R. split; [intros K; left; exact K|]. intros [K|[_ [_ [[K _]|[K _]]]]]; [exact K|contradiction|contradiction]. }
  clearbody full. split; [|split].
  - intros t. rewrite <- dmem_true. unfold dmem. rewrite dget_map_snd. destruct (dget t full) as [kws|] eqn:D.
    + split; [intros _; exists kws; apply FU; exact D|reflexivity].
    + split; [discriminate|]. intros [kws K]. apply FU in K. rewrite D in K. discriminate K.
  - intros t l E. rewrite dget_map_snd in E. destruct (dget t full) as [kws|] eqn:D; [|discriminate E]. injection E as E. subst l. destruct (kw_transform_spec table kws) as [parts [P1 P2]]. exists kws, parts. split; [apply FU; exact D|]. split; assumption.
  - intros t kw. rewrite in_flat_map. split.
    + intros [[x kws] [I K]]. cbn [fst snd] in K. apply in_flat_map in K. destruct K as [w [J K]]. destruct (dmem w table) eqn:D; [destruct K|]. destruct K as [K|[]]. injection K as K1 K2. subst x w. exists kws. split; [exact I|]. split; [exact J|]. intros C. apply dmem_true in C. rewrite D in C. discriminate C.
    + intros [kws [I [J K]]]. exists (t, kws). split; [exact I|]. cbn [fst snd]. apply in_flat_map. exists kw. split; [exact J|]. destruct (dmem kw table) eqn:D; [apply dmem_true in D; contradiction|]. left. reflexivity.
Qed.

(* ------------------------------------------------------------------ *)
(* EBGP roles                                                           *)

Section Role.
Variable node_as : string -> option Z.

(* an AS number of a node attached to a link of a VLAN *)
Definition as_in (links : list rlink) (name : string) (z : Z) : Prop :=
  exists l n, In l links /\ rl_vlan l = Some name /\ In n (rl_nodes l) /\ node_as n = Some z /\ z <> 0%Z.

Definition as_set (v : rvlan) : list Z := match rv_set v with Some s => s | None => [] end.

Lemma as_set_mk : forall r s, as_set (mk_rv r (Some s)) = s.
Proof. reflexivity. Qed.

Lemma collect_nodes : forall ns v, NoDup (as_set v) -> let v' := fold_left (collect_node node_as) ns v in
  rv_role v' = rv_role v /\ NoDup (as_set v') /\ forall z, In z (as_set v') <-> In z (as_set v) \/ exists n, In n ns /\ node_as n = Some z /\ z <> 0%Z.
Proof.
  intros ns. induction ns as [|n ns IH]; intros v ND; cbn [fold_left].
  - cbv zeta. split; [reflexivity|]. split; [exact ND|]. intros z. split; [intros K; left; exact K|intros [K|[n [[] _]]]; exact K].
  - assert (ST : rv_role (collect_node node_as v n) = rv_role v /\ NoDup (as_set (collect_node node_as v n)) /\ forall z, In z (as_set (collect_node node_as v n)) <-> In z (as_set v) \/ (node_as n = Some z /\ z <> 0%Z)).
    { unfold collect_node. destruct (node_as n) as [z|] eqn:A.
      - destruct (Z.eqb_spec z 0) as [Z0|Z0].
        + split; [reflexivity|]. split; [exact ND|]. intros y. split; [intros K; left; exact K|intros [K|[K1 K2]]; [exact K|exfalso; injection K1 as K1; apply K2; rewrite <- K1; exact Z0]].
        + cbv zeta. fold (as_set v). cbn [rv_role]. split; [reflexivity|]. destruct (memZ z (as_set v)) eqn:M.
          * apply memZ_true in M. split; [rewrite as_set_mk; exact ND|]. intros y. rewrite as_set_mk. split; [intros K; left; exact K|intros [K|[K1 _]]; [exact K|injection K1 as K1; subst y; exact M]].
          * apply memZ_false in M. split.
            -- rewrite as_set_mk. rewrite <- (rev_involutive (as_set v ++ [z])). apply NoDup_rev. rewrite rev_app_distr. cbn [rev app]. constructor; [rewrite <- in_rev; exact M|apply NoDup_rev; exact ND].
            -- intros y. rewrite as_set_mk, in_app_iff. cbn [In]. split; [intros [K|[K|[]]]; [left; exact K|right; split; [rewrite K; reflexivity|rewrite <- K; exact Z0]]|intros [K|[K1 _]]; [left; exact K|right; left; injection K1 as K1; exact K1]].
      - split; [reflexivity|]. split; [exact ND|]. intros y. split; [intros K; left; exact K|intros [K|[K _]]; [exact K|discriminate K]]. }
    destruct ST as [S1 [S2 S3]]. specialize (IH (collect_node node_as v n) S2). cbv zeta in IH |- *. destruct IH as [I1 [I2 I3]]. split; [rewrite I1; exact S1|]. split; [exact I2|]. intros z. rewrite I3, S3. split.
    + intros [[K|K]|[m [J K]]]; [left; exact K|right; exists n; split; [left; reflexivity|exact K]|right; exists m; split; [right; exact J|exact K]].
    + intros [K|[m [[J|J] K]]]; [left; left; exact K|subst m; left; right; exact K|right; exists m; split; assumption].
Qed.

Lemma collect_links : forall links vlans, (forall k v, dget k vlans = Some v -> NoDup (as_set v)) ->
  let vs := fold_left (fun vs l => match rl_vlan l with Some name => collect node_as vs name l | None => vs end) links vlans in
  dkeys vs = dkeys vlans /\ forall k v, dget k vlans = Some v -> exists v', dget k vs = Some v' /\ rv_role v' = rv_role v /\ NoDup (as_set v') /\ forall z, In z (as_set v') <-> In z (as_set v) \/ as_in links k z.
Proof.
  intros links. induction links as [|l links IH]; intros vlans ND; cbn [fold_left].
  - cbv zeta. split; [reflexivity|]. intros k v D. exists v. split; [exact D|]. split; [reflexivity|]. split; [exact (ND k v D)|]. intros z. split; [intros K; left; exact K|intros [K|[l [n [[] _]]]]; exact K].
  - set (v1 := match rl_vlan l with Some name => collect node_as vlans name l | None => vlans end).
    assert (ST : dkeys v1 = dkeys vlans /\ forall k v, dget k vlans = Some v -> exists v', dget k v1 = Some v' /\ rv_role v' = rv_role v /\ NoDup (as_set v') /\ forall z, In z (as_set v') <-> In z (as_set v) \/ (rl_vlan l = Some k /\ exists n, In n (rl_nodes l) /\ node_as n = Some z /\ z <> 0%Z)).
    { assert (SAME : forall k v, dget k vlans = Some v -> rl_vlan l <> Some k -> exists v', dget k vlans = Some v' /\ rv_role v' = rv_role v /\ NoDup (as_set v') /\ forall z, In z (as_set v') <-> In z (as_set v) \/ (rl_vlan l = Some k /\ exists n, In n (rl_nodes l) /\ node_as n = Some z /\ z <> 0%Z)).
      { intros k v D NK. exists v. split; [exact D|]. split; [reflexivity|]. split; [exact (ND k v D)|]. intros z. split; [intros K; left; exact K|intros [K|[K _]]; [exact K|contradiction]]. }
      unfold v1. destruct (rl_vlan l) as [name|]; [|split; [reflexivity|]; intros k v D; apply SAME; [exact D|discriminate]].
      unfold collect. destruct (dget name vlans) as [w|] eqn:W.
      - split; [apply dkeys_dset_mem; apply dmem_true; unfold dmem; rewrite W; reflexivity|]. intros k v D. destruct (string_dec k name) as [Q|Q].
        + subst k. rewrite W in D. injection D as D. subst w. destruct (collect_nodes (rl_nodes l) v (ND name v W)) as [C1 [C2 C3]]. eexists. split; [apply dget_dset_same|]. split; [exact C1|]. split; [exact C2|]. intros z. rewrite C3. split; [intros [K|K]; [left; exact K|right; split; [reflexivity|exact K]]|intros [K|[_ K]]; [left; exact K|right; exact K]].
        + rewrite dget_dset_other by exact Q. apply SAME; [exact D|]. intros K. injection K as K. apply Q. symmetry. exact K.
      - split; [reflexivity|]. intros k v D. apply SAME; [exact D|]. intros K. injection K as K. subst name. rewrite W in D. discriminate D. }
    clearbody v1. destruct ST as [S1 S2]. specialize (IH v1). cbv zeta in IH |- *. destruct IH as [I1 I2].
    { intros k v D. assert (KI : In k (dkeys vlans)) by (rewrite <- S1; apply dmem_true; unfold dmem; rewrite D; reflexivity). apply dmem_true in KI. unfold dmem in KI. destruct (dget k vlans) as [u|] eqn:U; [|discriminate KI]. destruct (S2 k u U) as [v' [E [_ [N _]]]]. rewrite D in E. injection E as E. subst v'. exact N. }
    split; [rewrite I1; exact S1|]. intros k v D. destruct (S2 k v D) as [u [U1 [U2 [_ U4]]]]. destruct (I2 k u U1) as [v' [V1 [V2 [V3 V4]]]]. exists v'. split; [exact V1|]. split; [rewrite V2; exact U2|]. split; [exact V3|]. intros z. rewrite V4, U4. unfold as_in. split.
    + intros [[K|[K1 [n K2]]]|[l2 [n [J K]]]]; [left; exact K|right; exists l, n; split; [left; reflexivity|]; split; [exact K1|exact K2]|right; exists l2, n; split; [right; exact J|exact K]].
    + intros [K|[l2 [n [[J|J] [K1 K2]]]]]; [left; left; exact K|subst l2; left; right; split; [exact K1|exists n; exact K2]|right; exists l2, n; split; [exact J|]; split; assumption].
Qed.

(* A VLAN without a role gets the EBGP role if and only if nodes from two autonomous systems are attached to its links; a link that
   belongs to no VLAN if and only if nodes from two autonomous systems are attached to the link. *)
Theorem ebgp_roles_exact : forall role links vlans links' vlans', role <> "" -> (forall k v, dget k vlans = Some v -> rv_set v = None) ->
  set_roles node_as role true links vlans = (links', vlans') ->
  (dkeys vlans' = dkeys vlans /\ forall k v, dget k vlans = Some v -> exists v', dget k vlans' = Some v' /\ rv_set v' = None /\
     (forall r, rv_role v = Some r -> rv_role v' = Some r) /\
     (rv_role v = None -> (rv_role v' = Some role <-> exists a b, as_in links k a /\ as_in links k b /\ a <> b) /\ (rv_role v' = Some role \/ rv_role v' = None))) /\
  Forall2 (fun l l' => rl_vlan l' = rl_vlan l /\ rl_nodes l' = rl_nodes l /\
     (rl_vlan l <> None \/ (exists r, rl_role l = Some r /\ r <> "") -> rl_role l' = rl_role l) /\
     (rl_vlan l = None -> rl_role l = None \/ rl_role l = Some "" ->
        (rl_role l' = Some role <-> exists x y a b, In x (rl_nodes l) /\ In y (rl_nodes l) /\ node_as x = Some a /\ node_as y = Some b /\ a <> 0%Z /\ b <> 0%Z /\ a <> b) /\
        (rl_role l' = Some role \/ rl_role l' = rl_role l))) links links'.
Proof.
  intros role links vlans links' vlans' NR NS H. unfold set_roles in H. destruct (String.eqb_spec role "") as [Q|_]; [contradiction|]. injection H as H1 H2. subst links' vlans'. split.
  - assert (AS : forall k v, dget k vlans = Some v -> as_set v = []) by (intros k v D; unfold as_set; rewrite (NS k v D); reflexivity).
    destruct (collect_links links vlans) as [C1 C2]; [intros k v D; rewrite (AS k v D); constructor|]. cbv zeta in C1, C2. set (vs := fold_left _ links vlans) in *. clearbody vs. split.
    + rewrite <- C1. unfold dkeys. rewrite map_map. reflexivity.
    + intros k v D. destruct (C2 k v D) as [u [U1 [U2 [U3 U4]]]]. rewrite (AS k v D) in U4. exists (vlan_role role u). split; [rewrite (dget_map_snd (vlan_role role)), U1; reflexivity|].
      assert (TWO : (exists a b, as_in links k a /\ as_in links k b /\ a <> b) <-> 1 < length (as_set u)).
      { split.
        - intros [a [b [A [B N]]]]. assert (IA : In a (as_set u)) by (apply U4; right; exact A). assert (IB : In b (as_set u)) by (apply U4; right; exact B). destruct (as_set u) as [|x [|y r]]; [destruct IA| |cbn [length]; lia]. destruct IA as [IA|[]]. destruct IB as [IB|[]]. exfalso. apply N. rewrite <- IA. exact IB.
        - intros L. destruct (as_set u) as [|x [|y r]] eqn:E; [cbn [length] in L; lia|cbn [length] in L; lia|]. exists x, y. assert (X : In x (x :: y :: r)) by (left; reflexivity). assert (Y : In y (x :: y :: r)) by (right; left; reflexivity). apply U4 in X. apply U4 in Y. destruct X as [[]|X]. destruct Y as [[]|Y]. split; [exact X|]. split; [exact Y|]. apply NoDup_cons_iff in U3. destruct U3 as [U3 _]. intros K. apply U3. left. symmetry. exact K. }
      rewrite TWO. rewrite <- U2. clear - TWO NR. unfold vlan_role, as_set. destruct (rv_set u) as [s|] eqn:S; cbn [rv_set rv_role].
      * split; [reflexivity|]. split; [intros r E; rewrite E; reflexivity|]. intros E. rewrite E. destruct (Nat.ltb_spec 1 (length s)) as [L|L]; [split; [split; [intros _; exact L|reflexivity]|left; reflexivity]|]. split; [split; [discriminate|lia]|right; reflexivity].
      * split; [exact S|]. split; [intros r E; exact E|]. intros E. rewrite E. split; [split; [discriminate|cbn [length]; lia]|right; reflexivity].
  - clear vlans NS. induction links as [|l links IH]; [constructor|]. cbn [map]. constructor; [|exact IH]. clear IH. destruct l as [[name|] r ns]; cbn [rl_vlan rl_role rl_nodes].
    + split; [reflexivity|]. split; [reflexivity|]. split; [intros _; reflexivity|intros K; discriminate K].
    + split; [reflexivity|]. split; [reflexivity|]. destruct (Bgp_Props.ebgp_role_spec (map node_as ns) role NR) as [E1 [E2 E3]]. split.
      * intros [K|[x [K1 K2]]]; [exfalso; apply K; reflexivity|]. rewrite K1. apply E3. exact K2.
      * intros _ K. assert (EX : (exists x y a b, In x ns /\ In y ns /\ node_as x = Some a /\ node_as y = Some b /\ a <> 0%Z /\ b <> 0%Z /\ a <> b) <-> (exists a b, a <> b /\ a <> 0%Z /\ b <> 0%Z /\ In (Some a) (map node_as ns) /\ In (Some b) (map node_as ns))).
        { split.
          - intros [x [y [a [b [X [Y [A [B [Z1 [Z2 N]]]]]]]]]]. exists a, b. split; [exact N|]. split; [exact Z1|]. split; [exact Z2|]. split; apply in_map_iff; [exists x|exists y]; split; assumption.
          - intros [a [b [N [Z1 [Z2 [A B]]]]]]. apply in_map_iff in A. apply in_map_iff in B. destruct A as [x [A1 A2]]. destruct B as [y [B1 B2]]. exists x, y, a, b. repeat (split; [assumption|]). assumption. }
        rewrite EX, <- E1. destruct K as [K|K]; rewrite K; [split; [reflexivity|exact E2]|].
        assert (SE : Bgp_Model.ebgp_role_link (Some "") (map node_as ns) role = match Bgp_Model.ebgp_role_link None (map node_as ns) role with Some x => Some x | None => Some "" end).
        { unfold Bgp_Model.ebgp_role_link. destruct (1 <? Z.of_nat (length (Bgp_Model.distinct_as (map node_as ns))))%Z; reflexivity. }
        rewrite SE. destruct E2 as [E2|E2]; rewrite E2; [split; [split; reflexivity|left; reflexivity]|]. split; [|right; reflexivity]. split; [intros X; injection X as X; exfalso; apply NR; symmetry; exact X|discriminate].
Qed.
End Role.

(* ------------------------------------------------------------------ *)
(* Examples                                                             *)

Example x_advertise :
  let nodes n := if String.eqb n "h" then mk_an false "host" else if String.eqb n "d" then mk_an true "host" else mk_an false "router" in
  let i t r b g := mk_ai t r b g [("ipv4", VBool true)] false in
  map ai_bgp (set_advertise nodes ["stub"; "lan"] true
    [i None (Some "stub") NoBgp ["h"]; i None (Some "stub") NoBgp ["h"; "d"]; i (Some "lan") None (BgpData [("x", VInt 1)]) ["r"]; i (Some "loopback") None NoBgp []; i (Some "p2p") None NoBgp ["r"];
     i (Some "lan") None BgpOff ["r"]; i (Some "lan") None (BgpData [("advertise", VBool false)]) ["r"]]) =
  [BgpData [("advertise", VBool true)]; BgpData [("advertise", VBool false)]; BgpData [("x", VInt 1); ("advertise", VBool true)]; BgpData [("advertise", VBool true)]; NoBgp; BgpOff; BgpData [("advertise", VBool false)]].
Proof. reflexivity. Qed.

Example x_originate :
  let i af vrf := mk_ai None None (BgpData [("advertise", VBool true)]) [] [(af, VBool true)] vrf in
  originate [("p", Some "10.0.0.0/8"); ("q", None)] (mk_on ["p"; "192.168.0.0/24"; "q"] [] (Some (VBool false)) ["ipv6"] [i "ipv6" true]) =
    (mk_on ["10.0.0.0/8"; "192.168.0.0/24"; "q"] [("ipv4", VBool true)] (Some (VBool false)) ["ipv6"] [i "ipv6" true], ["q"]) /\
  on_flags (fst (originate [] (mk_on [] [("ipv4", VBool false)] (Some (VBool false)) [] [i "ipv6" false]))) = [("ipv4", VBool false); ("ipv6", VBool true)].
Proof. split; reflexivity. Qed.

Example x_community :
  transform_community [("standard", VNull); ("large", VList [VStr "large"; VStr "standard"]); ("extended", VBool false)]
    [("ibgp", ["large"; "standard"; "extended"]); ("ebgp", ["2octet"; "standard"])] =
  ([("ibgp", [VStr "large"; VStr "standard"]); ("ebgp", [VStr "standard"]); ("localas_ibgp", [VStr "large"; VStr "standard"])], [("ebgp", "2octet")]).
Proof. reflexivity. Qed.

Example x_table :
  transform_community (community_table (Some [])) [("ebgp", ["standard"; "large"; "standard"])] =
    ([("ebgp", [VStr "standard"]); ("ibgp", []); ("localas_ibgp", [])], [("ebgp", "large")]) /\
  fst (transform_community (community_table (Some [("large", VStr "lc")])) [("ebgp", ["standard"; "large"]); ("localas_ibgp", [])]) = [("ebgp", [VStr "lc"]); ("localas_ibgp", [])].
Proof. split; reflexivity. Qed.

Example x_roles :
  let node_as n := if String.eqb n "a" then Some 65000%Z else if String.eqb n "b" then Some 65001%Z else if String.eqb n "c" then Some 65000%Z else None in
  set_roles node_as "external" true
    [mk_rl (Some "red") None ["a"; "c"]; mk_rl None None ["a"; "b"]; mk_rl None (Some "stub") ["a"; "b"]; mk_rl (Some "red") None ["b"; "h"]; mk_rl (Some "blue") None ["a"; "c"]; mk_rl (Some "x") None ["a"; "b"]]
    [("red", mk_rv None None); ("blue", mk_rv None None); ("green", mk_rv None None)] =
  ([mk_rl (Some "red") None ["a"; "c"]; mk_rl None (Some "external") ["a"; "b"]; mk_rl None (Some "stub") ["a"; "b"]; mk_rl (Some "red") None ["b"; "h"]; mk_rl (Some "blue") None ["a"; "c"]; mk_rl (Some "x") None ["a"; "b"]],
   [("red", mk_rv (Some "external") None); ("blue", mk_rv None None); ("green", mk_rv None None)]).
Proof. reflexivity. Qed.

(* Devices without their own table use the standard and extended keywords, other devices their own ones. *)
Theorem community_table_exact : forall features k, ((features = None \/ features = Some []) -> forall v, dget k (community_table features) = Some v <-> v = VStr k /\ (k = "standard" \/ k = "extended")) /\
  (forall t, features = Some t -> t <> [] -> dget k (community_table features) = dget k t).
Proof.
  intros features k. split.
  - intros F v. assert (E : community_table features = [("standard", VStr "standard"); ("extended", VStr "extended")]) by (destruct F as [F|F]; rewrite F; reflexivity). rewrite E. cbn [dget]. destruct (String.eqb_spec k "standard") as [A|A].
    + split; [intros H; injection H as H; subst; split; [reflexivity|left; reflexivity]|intros [H _]; subst; reflexivity].
    + destruct (String.eqb_spec k "extended") as [B|B].
      * split; [intros H; injection H as H; subst; split; [reflexivity|right; reflexivity]|intros [H _]; subst; reflexivity].
      * split; [discriminate|]. intros [_ [H|H]]; contradiction.
  - intros t F N. subst features. destruct t as [|x t]; [exfalso; apply N; reflexivity|reflexivity].
Qed.

Print Assumptions community_table_exact.
Print Assumptions advertise_exact.
Print Assumptions originate_af_exact.
Print Assumptions community_exact.
Print Assumptions ebgp_roles_exact.
