(* Properties of route import requests, default routes, VRF checks of routing protocols and node attributes copied into interfaces. *)
From Coq Require Import String Ascii ZArith Lia Bool List.
From Verif Require Import Base Box_Model Box_Props Imp_Model.
From Verif Require Import Asg_Props.
Import ListNotations.
Local Open Scope string_scope.
Local Open Scope list_scope.

(* ------------------------------------------------------------------ *)
(* Route import requests                                                *)

Definition bool_or_dict (v : val) : Prop := (exists b, v = VBool b) \/ exists d, v = VDict d.

Section Import.
Variable feature : fimport.
Variable proto : string.
Variable modules : list string.

(* the device can import routes of a protocol *)
Definition importable (p : string) : Prop := feature = FYes \/ exists l, feature = FList l /\ In p l.
Definition running (p : string) : Prop := In p modules \/ p = "connected".
(* errors of an import request *)
Definition errors_of (x : string * val) (e : list ierror) : Prop :=
  (~ importable (fst x) -> e = [ICannot (fst x)]) /\
  (importable (fst x) -> snd x = VBool false -> e = []) /\
  (importable (fst x) -> snd x <> VBool false -> ~ running (fst x) -> e = [INotRunning (fst x)]) /\
  (importable (fst x) -> snd x <> VBool false -> running (fst x) -> fst x = proto -> e = [ISelf (fst x)]) /\
  (importable (fst x) -> snd x <> VBool false -> running (fst x) -> fst x <> proto -> e = []).
(* a valid request with a routing policy *)
Definition uses_policy (x : string * val) (p : val) : Prop :=
  importable (fst x) /\ running (fst x) /\ fst x <> proto /\ truthy p = true /\ exists e, snd x = VDict e /\ dget "policy" e = Some p.
Definition no_policies : Prop := exists l, feature = FList l /\ In "no_policy" l.
(* the final data of a source protocol *)
Definition data_of (d : dict val) (k : string) (w : option val) : Prop :=
  (importable k -> dget k d = Some (VBool false) -> w = None) /\
  (importable k -> dget k d = Some (VBool true) -> w = Some (VDict [])) /\
  (~ importable k \/ (forall b, dget k d <> Some (VBool b)) -> w = dget k d).

Hypothesis supported : feature <> FNo /\ feature <> FList [].

Lemma importable_iff : forall p, can_import feature p = true <-> importable p.
Proof.
  intros p. unfold can_import, importable. destruct feature as [| |l].
  - destruct supported as [H _]. exfalso. apply H. reflexivity.
  - split; [left; reflexivity|reflexivity].
  - rewrite memS_true. split; [intros H; right; exists l; split; [reflexivity|exact H]|intros [H|[m [H1 H2]]]; [discriminate H|injection H1 as H1; subst m; exact H2]].
Qed.

Lemma importable_dec : forall p, importable p \/ ~ importable p.
Proof. intros p. destruct (can_import feature p) eqn:C; [left; apply importable_iff; exact C|right; intros K; apply importable_iff in K; rewrite K in C; discriminate C]. Qed.

Lemma running_iff : forall p, negb (memS p modules) && negb (String.eqb p "connected") = false <-> running p.
Proof.
  intros p. unfold running. rewrite andb_false_iff, !negb_false_iff, memS_true, String.eqb_eq. reflexivity.
Qed.

Lemma import_error_spec : forall x, errors_of x (import_error feature proto modules x).
Proof.
  intros x. unfold errors_of, import_error. pose proof (importable_iff (fst x)) as I. pose proof (running_iff (fst x)) as R.
  destruct (can_import feature (fst x)).
  - assert (IM : importable (fst x)) by (apply I; reflexivity). split; [intros K; contradiction|]. split; [intros _ E; rewrite E; reflexivity|].
    set (b := negb (memS (fst x) modules) && negb (String.eqb (fst x) "connected")) in *. clearbody b.
    assert (V : snd x = VBool false \/ match snd x with VBool false => ([] : list ierror) | _ => if b then [INotRunning (fst x)] else if String.eqb (fst x) proto then [ISelf (fst x)] else [] end = (if b then [INotRunning (fst x)] else if String.eqb (fst x) proto then [ISelf (fst x)] else [])) by (destruct (snd x) as [|[|]|z|s|l|d]; [right; reflexivity|right; reflexivity|left; reflexivity|right; reflexivity|right; reflexivity|right; reflexivity|right; reflexivity]).
    destruct V as [V|V]; [split; [|split]; intros _ N; contradiction|]. rewrite V. clear V. destruct b; split; [intros _ _ _; reflexivity| |intros _ _ N; exfalso; apply N; apply R; reflexivity|].
    + split; intros _ _ N; exfalso; apply R in N; discriminate N.
    + split; intros _ _ _ E; [rewrite E, String.eqb_refl; reflexivity|apply String.eqb_neq in E; rewrite E; reflexivity].
  - assert (NI : ~ importable (fst x)) by (intros K; apply I in K; discriminate K). split; [intros _; reflexivity|]. split; [|split; [|split]]; intros K; contradiction.
Qed.

(* the request uses a policy, as computed by the loop *)
Definition hit (x : string * val) : option val :=
  match import_error feature proto modules x with
  | [] => if can_import feature (fst x) then import_policy (snd x) else None
  | _ => None
  end.

Lemma hit_iff : forall x p, hit x = Some p <-> uses_policy x p.
Proof.
  intros x p. unfold hit, uses_policy. destruct (import_error_spec x) as [E1 [E2 [E3 [E4 E5]]]]. pose proof (importable_iff (fst x)) as I.
  assert (NF : forall e, snd x = VDict e -> snd x <> VBool false) by (intros e K; rewrite K; discriminate). split.
  - destruct (import_error feature proto modules x) as [|y l] eqn:E; [|discriminate]. destruct (can_import feature (fst x)) eqn:C; [|discriminate]. assert (IM : importable (fst x)) by (apply I; reflexivity).
    intros H. unfold import_policy in H. destruct (snd x) as [|b|z|s|l|d] eqn:V; try discriminate H. destruct (dget "policy" d) as [q|] eqn:P; [|discriminate H]. destruct (truthy q) eqn:T; [|discriminate H]. injection H as H. subst q.
    assert (RN : running (fst x)).
    { destruct (negb (memS (fst x) modules) && negb (String.eqb (fst x) "connected")) eqn:B; [|apply running_iff; exact B]. assert (NR : ~ running (fst x)) by (intros K; apply running_iff in K; rewrite K in B; discriminate B). specialize (E3 IM ltac:(discriminate) NR). discriminate E3. }
    split; [exact IM|]. split; [exact RN|]. split; [intros K; specialize (E4 IM ltac:(discriminate) RN K); discriminate E4|]. split; [exact T|]. exists d. split; [reflexivity|exact P].
  - intros [IM [RN [NP [T [d [V P]]]]]]. rewrite (E5 IM (NF d V) RN NP). destruct (can_import feature (fst x)); [|apply I in IM; discriminate IM]. rewrite V. unfold import_policy. rewrite P, T. reflexivity.
Qed.

Definition stops : bool := match feature with FList l => memS "no_policy" l | _ => false end.
Definition added (x : string * val) : list string := match hit x with Some p => policy_name p | None => [] end.

Lemma loop_step : forall x r, import_loop feature proto modules (x :: r) =
  match hit x with
  | Some p => match feature with
              | FList _ => if stops then Some (import_data feature x ++ r, [INoPolicy (fst x)], [])
                           else match import_loop feature proto modules r with Some (d1, e1, p1) => Some (import_data feature x ++ d1, import_error feature proto modules x ++ e1, added x ++ p1) | None => None end
              | _ => None
              end
  | None => match import_loop feature proto modules r with Some (d1, e1, p1) => Some (import_data feature x ++ d1, import_error feature proto modules x ++ e1, added x ++ p1) | None => None end
  end.
Proof.
  intros x r. cbn [import_loop]. cbv zeta. unfold hit, added, stops, hit. destruct (import_error feature proto modules x) as [|y l]; [|reflexivity]. destruct (if can_import feature (fst x) then import_policy (snd x) else None) as [p|]; [|reflexivity]. destruct feature as [| |l]; try reflexivity.
Qed.

Definition quiet (d : dict val) : Prop := (forall x p, In x d -> ~ uses_policy x p) \/ (exists l, feature = FList l) /\ ~ no_policies.

Lemma stops_iff : stops = true <-> no_policies.
Proof.
  unfold stops, no_policies. destruct feature as [| |l]; [split; [discriminate|intros [m [H _]]; discriminate H]|split; [discriminate|intros [m [H _]]; discriminate H]|]. rewrite memS_true. split; [intros H; exists l; split; [reflexivity|exact H]|intros [m [H1 H2]]; injection H1 as H1; subst m; exact H2].
Qed.

Lemma loop_app : forall a b, quiet a -> import_loop feature proto modules (a ++ b) =
  match import_loop feature proto modules b with
  | Some (d1, e1, p1) => Some (flat_map (import_data feature) a ++ d1, flat_map (import_error feature proto modules) a ++ e1, flat_map added a ++ p1)
  | None => None
  end.
Proof.
  induction a as [|x a IH]; intros b Q.
  - cbn [app flat_map]. destruct (import_loop feature proto modules b) as [[[d1 e1] p1]|]; reflexivity.
  - assert (QA : quiet a) by (destruct Q as [Q|Q]; [left; intros y p I; apply Q; right; exact I|right; exact Q]).
    change ((x :: a) ++ b) with (x :: (a ++ b)). rewrite loop_step, (IH b QA). cbn [flat_map].
    assert (K : match hit x with
      | Some p => match feature with FList _ => if stops then False else True | _ => False end
      | None => True end).
    { destruct (hit x) as [p|] eqn:H; [|exact I]. destruct Q as [Q|[[l Q1] Q2]]; [apply hit_iff in H; exfalso; exact (Q x p (or_introl eq_refl) H)|]. pose proof stops_iff as S. rewrite Q1. destruct stops; [apply Q2; apply S; reflexivity|exact I]. }
    destruct (hit x) as [p|].
    + assert (FL : exists l, feature = FList l) by (destruct feature as [| |l]; [contradiction|contradiction|exists l; reflexivity]). assert (SF : stops = false) by (destruct FL as [l FL]; rewrite FL in K; destruct stops; [contradiction|reflexivity]). rewrite SF. destruct (import_loop feature proto modules b) as [[[d1 e1] p1]|]; destruct FL as [l FL]; rewrite FL; [rewrite <- FL, !app_assoc; reflexivity|reflexivity].
    + destruct (import_loop feature proto modules b) as [[[d1 e1] p1]|]; [rewrite !app_assoc; reflexivity|reflexivity].
Qed.

Lemma import_data_keys : forall x, import_data feature x = [] \/ exists v, import_data feature x = [(fst x, v)].
Proof.
  intros [k v]. unfold import_data. cbn [fst snd]. destruct (can_import feature k); [|right; exists v; reflexivity]. destruct v as [|[|]|z|s|l|d]; try (right; eexists; reflexivity). left. reflexivity.
Qed.

Lemma dget_app : forall (k : string) (a b : dict val), dget k (a ++ b) = match dget k a with Some v => Some v | None => dget k b end.
Proof. intros k a b. induction a as [|[x v] a IH]; [reflexivity|]. cbn [app dget]. destruct (String.eqb k x); [reflexivity|exact IH]. Qed.

Lemma dget_data : forall d k, NoDup (dkeys d) -> data_of d k (dget k (flat_map (import_data feature) d)).
Proof.
  intros d k ND. assert (ABS : forall e, ~ In k (dkeys e) -> dget k (flat_map (import_data feature) e) = None).
  { induction e as [|x e IH]; intros N; [reflexivity|]. cbn [flat_map]. rewrite dget_app. assert (NX : fst x <> k) by (intros K; apply N; left; exact K). assert (NE : ~ In k (dkeys e)) by (intros K; apply N; right; exact K). destruct (import_data_keys x) as [D|[v D]]; rewrite D; cbn [dget]; [exact (IH NE)|]. destruct (String.eqb_spec k (fst x)) as [K|K]; [exfalso; apply NX; symmetry; exact K|exact (IH NE)]. }
  unfold data_of. induction d as [|[x v] d IH].
  - cbn [flat_map dget]. split; [discriminate 2|split; [discriminate 2|reflexivity]].
  - cbn [dkeys map fst] in ND. apply NoDup_cons_iff in ND. destruct ND as [NI ND]. cbn [flat_map dget]. rewrite dget_app. destruct (String.eqb_spec k x) as [K|K].
    + subst x. rewrite (ABS d NI). unfold import_data. cbn [fst snd]. pose proof (importable_iff k) as IMP. destruct (can_import feature k).
      * assert (IM : importable k) by (apply IMP; reflexivity). destruct v as [|[|]|z|s|l|e]; cbn [dget]; try rewrite String.eqb_refl; (split; [intros _ E; try discriminate E; reflexivity|]; split; [intros _ E; try discriminate E; reflexivity|]); intros [N|N]; try contradiction; try reflexivity; exfalso; eapply N; reflexivity.
      * assert (NM : ~ importable k) by (intros C; apply IMP in C; discriminate C). cbn [dget]. rewrite String.eqb_refl. split; [intros C; contradiction|]. split; [intros C; contradiction|]. reflexivity.
    + specialize (IH ND). assert (E : dget k (import_data feature (x, v)) = None).
      { destruct (import_data_keys (x, v)) as [D|[w D]]; rewrite D; [reflexivity|]. cbn [dget fst]. destruct (String.eqb_spec k x); [contradiction|reflexivity]. }
      rewrite E. exact IH.
Qed.

(* RIPv2 becomes RIP *)
Definition rip_renamed (get get' : string -> option val) : Prop :=
  get' "ripv2" = None /\ (forall v, get "ripv2" = Some v -> get' "rip" = Some v) /\ (get "ripv2" = None -> get' "rip" = get "rip") /\ forall k, k <> "rip" -> k <> "ripv2" -> get' k = get k.

Lemma rename_rip_spec : forall d, rip_renamed (fun k => dget k d) (fun k => dget k (rename_rip d)).
Proof.
  intros d. unfold rip_renamed, rename_rip. destruct (dget "ripv2" d) as [v|] eqn:V.
  - split; [apply dget_dpop_same|]. split; [intros w E; injection E as E; subst w; rewrite dget_dpop_other by discriminate; apply dget_dset_same|]. split; [discriminate|]. intros k K1 K2. rewrite dget_dpop_other by exact K2. apply dget_dset_other. exact K1.
  - split; [exact V|]. split; [discriminate|]. split; [reflexivity|]. reflexivity.
Qed.

(* a list collected from all elements *)
Definition collected {A B} (R : A -> list B -> Prop) (l : list A) (r : list B) : Prop := exists f, r = flat_map f l /\ forall x, In x l -> R x (f x).
Definition added_policy (x : string * val) (p : list string) : Prop :=
  (forall s, uses_policy x (VStr s) -> p = [s]) /\ ((forall s, ~ uses_policy x (VStr s)) -> p = []).

Lemma added_spec : forall x, added_policy x (added x).
Proof.
  intros x. unfold added_policy, added. split.
  - intros s H. apply hit_iff in H. rewrite H. reflexivity.
  - intros N. destruct (hit x) as [p|] eqn:H; [|reflexivity]. destruct p as [|b|z|s|l|d]; try reflexivity. exfalso. apply (N s). apply hit_iff. exact H.
Qed.

(* Import requests when policies cause no problems: the device can use them or there are none. *)
Theorem check_import_exact : forall d, NoDup (dkeys d) -> quiet d -> exists d' e p, check_import feature proto modules d = Some (d', e, p) /\
  collected errors_of d e /\ collected added_policy d p /\ exists get, (forall k, data_of d k (get k)) /\ rip_renamed get (fun k => dget k d').
Proof.
  intros d ND Q. pose proof (loop_app d [] Q) as L. rewrite app_nil_r in L. cbn [import_loop] in L. rewrite !app_nil_r in L. unfold check_import.
  exists (rename_rip (flat_map (import_data feature) d)), (flat_map (import_error feature proto modules) d), (flat_map added d). split.
  - destruct supported as [S1 S2]. destruct feature as [| |[|y l]] eqn:F; try contradiction; rewrite L; reflexivity.
  - split; [exists (import_error feature proto modules); split; [reflexivity|intros x _; apply import_error_spec]|]. split; [exists added; split; [reflexivity|intros x _; apply added_spec]|].
    exists (fun k => dget k (flat_map (import_data feature) d)). split; [intros k; apply dget_data; exact ND|apply rename_rip_spec].
Qed.

(* The first policy on a device that cannot use them ends the processing: later requests are not checked or changed. *)
Theorem import_no_policy_exact : forall a x b p, no_policies -> NoDup (dkeys (a ++ x :: b)) -> (forall y q, In y a -> ~ uses_policy y q) -> uses_policy x p ->
  exists d' e, check_import feature proto modules (a ++ x :: b) = Some (d', e ++ [INoPolicy (fst x)], []) /\ collected errors_of a e /\
    exists get, (forall k, In k (dkeys b) -> get k = dget k b) /\ (forall k, ~ In k (dkeys b) -> data_of (a ++ [x]) k (get k)) /\ rip_renamed get (fun k => dget k d').
Proof.
  intros a x b p NP ND QA U. assert (HX : hit x = Some p) by (apply hit_iff; exact U). pose proof (proj2 stops_iff NP) as ST.
  pose proof (loop_app a (x :: b) (or_introl QA)) as L. rewrite loop_step, HX in L. destruct NP as [l [F I]].
  assert (AE : flat_map added a = []).
  { clear L ND. induction a as [|y a IH]; [reflexivity|]. cbn [flat_map]. rewrite IH by (intros z q J; apply QA; right; exact J). unfold added. destruct (hit y) as [q|] eqn:H; [|reflexivity]. apply hit_iff in H. exfalso. exact (QA y q (or_introl eq_refl) H). }
  assert (LL : import_loop feature proto modules (a ++ x :: b) = Some (flat_map (import_data feature) (a ++ [x]) ++ b, flat_map (import_error feature proto modules) a ++ [INoPolicy (fst x)], [])).
  { rewrite L, ST. rewrite F. rewrite AE, flat_map_app. cbn [flat_map]. rewrite !app_nil_r, <- app_assoc. reflexivity. }
  exists (rename_rip (flat_map (import_data feature) (a ++ [x]) ++ b)), (flat_map (import_error feature proto modules) a). split.
  - unfold check_import. destruct supported as [S1 S2]. rewrite LL. rewrite F in *. destruct l as [|y l]; [contradiction|reflexivity].
  - split; [exists (import_error feature proto modules); split; [reflexivity|intros y _; apply import_error_spec]|].
    assert (NDA : NoDup (dkeys (a ++ [x])) /\ forall k, In k (dkeys b) -> ~ In k (dkeys (a ++ [x]))).
    { replace (a ++ x :: b) with ((a ++ [x]) ++ b) in ND by (rewrite <- app_assoc; reflexivity). unfold dkeys in *. rewrite map_app in ND. clear -ND. induction (map fst (a ++ [x])) as [|k l IH]; [split; [constructor|intros k _ []]|]. cbn [app] in ND. apply NoDup_cons_iff in ND. destruct ND as [N1 N2]. destruct (IH N2) as [A B]. split; [constructor; [intros K; apply N1; apply in_or_app; left; exact K|exact A]|]. intros z Z [K|K]; [subst z; apply N1; apply in_or_app; right; exact Z|exact (B z Z K)]. }
    destruct NDA as [NDA DISJ]. exists (fun k => dget k (flat_map (import_data feature) (a ++ [x]) ++ b)). split; [|split; [|apply rename_rip_spec]].
    + intros k K. rewrite dget_app. pose proof (dget_data (a ++ [x]) k NDA) as [_ [_ D]]. assert (N : dget k (a ++ [x]) = None) by (destruct (dget k (a ++ [x])) as [w|] eqn:W; [exfalso; apply (DISJ k K); apply (dget_Some_key _ _ W)|reflexivity]). rewrite D by (right; intros c C; rewrite N in C; discriminate C). rewrite N. reflexivity.
    + intros k K. rewrite dget_app. assert (N : dget k b = None) by (destruct (dget k b) as [w|] eqn:W; [exfalso; apply K; apply (dget_Some_key _ _ W)|reflexivity]). rewrite N. pose proof (dget_data (a ++ [x]) k NDA) as D. destruct (dget k (flat_map (import_data feature) (a ++ [x]))); exact D.
Qed.
End Import.

(* Devices without the feature report one error and nothing changes. *)
Theorem import_unsupported : forall feature proto modules d, feature = FNo \/ feature = FList [] -> check_import feature proto modules d = Some (d, [INotSupported], []).
Proof. intros f p m d [F|F]; subst f; reflexivity. Qed.

(* A device with "import: True" and a routing policy on an import request cause an exception. *)
Theorem import_policy_refuted : exists proto modules d, (forall k v, dget k d = Some v -> bool_or_dict v) /\ NoDup (dkeys d) /\ check_import FYes proto modules d = None.
Proof.
  exists "ospf", ["ospf"; "bgp"], [("bgp", VDict [("policy", VStr "rp")])]. split; [|split; [repeat constructor; intros []|reflexivity]].
  intros k v H. cbn [dget] in H. destruct (String.eqb k "bgp"); [|discriminate H]. injection H as H. subst v. right. eexists. reflexivity.
Qed.

(* ------------------------------------------------------------------ *)
(* Default routes                                                       *)

Section Default.
Variable feature : option val.
Variable proto : string.

Definition other_keys (k0 : string) (a b : dict val) : Prop := forall k, k <> k0 -> dget k b = dget k a.
Definition can_originate : Prop := exists f, feature = Some f /\ truthy f = true.
Definition policy_feature : Prop := exists f p, feature = Some (VDict f) /\ dget "policy" f = Some p /\ truthy p = true.
Definition default_of (vd : dict val) (v : val) : Prop := exists pd, dget proto vd = Some (VDict pd) /\ dget "default" pd = Some v.
Definition policy_of (v p : val) : Prop := exists e, v = VDict e /\ dget "policy" e = Some p.

(* data of a node or a VRF before and after, errors and policies *)
Definition adjusted (vrf : option string) (vd : dict val) (r : dict val * list derror * list string) : Prop :=
  let vd' := fst (fst r) in let e := snd (fst r) in let p := snd r in
  other_keys proto vd vd' /\
  ((forall v, ~ default_of vd v) -> vd' = vd /\ e = [] /\ p = []) /\
  (forall pd v, dget proto vd = Some (VDict pd) -> dget "default" pd = Some v -> exists pd', dget proto vd' = Some (VDict pd') /\ other_keys "default" pd pd' /\
     (v = VBool false -> dget "default" pd' = None /\ e = [] /\ p = []) /\
     (v = VBool true -> dget "default" pd' = Some (VDict [("enabled", VBool true)])) /\
     ((forall b, v <> VBool b) -> dget "default" pd' = Some v)) /\
  (forall v, default_of vd v -> v <> VBool false ->
     (~ can_originate -> e = [DNotSupported vrf] /\ p = []) /\
     (can_originate -> (forall q, ~ policy_of v q) -> e = [] /\ p = []) /\
     (forall q, can_originate -> policy_of v q -> ~ policy_feature -> e = [DNoPolicy vrf] /\ p = []) /\
     (forall q, policy_of v q -> policy_feature -> e = [] /\ (forall s, q = VStr s -> s <> "" -> p = [s]) /\ ((forall s, q = VStr s -> s = "") -> p = []))).

Lemma truthy_opt_iff : forall o, truthy_opt o = true <-> exists f, o = Some f /\ truthy f = true.
Proof. intros [f|]; cbn [truthy_opt]; [split; [intros H; exists f; split; [reflexivity|exact H]|intros [g [E T]]; injection E as E; subst g; exact T]|split; [discriminate|intros [g [E _]]; discriminate E]]. Qed.

Lemma policy_feature_iff : policy_feature <-> exists f, feature = Some (VDict f) /\ truthy_opt (dget "policy" f) = true.
Proof.
  unfold policy_feature. split.
  - intros [f [p [F [P T]]]]. exists f. split; [exact F|]. rewrite P. exact T.
  - intros [f [F T]]. apply truthy_opt_iff in T. destruct T as [p [P T]]. exists f, p. split; [exact F|]. split; [exact P|exact T].
Qed.

Lemma pf_can : policy_feature -> can_originate.
Proof. intros [f [p [F [P T]]]]. exists (VDict f). split; [exact F|]. destruct f; [discriminate P|reflexivity]. Qed.

Lemma adjust_spec : forall vrf vd, adjusted vrf vd (default_adjust feature proto vrf vd).
Proof.
  intros vrf vd. unfold default_adjust.
  assert (NONE : (forall v, ~ default_of vd v) -> adjusted vrf vd (vd, [], [])).
  { intros N. unfold adjusted. cbn [fst snd]. split; [intros k _; reflexivity|]. split; [intros _; split; [reflexivity|split; reflexivity]|]. split; [intros pd v P D; exfalso; apply (N v); exists pd; split; [exact P|exact D]|]. intros v D. exfalso. exact (N v D). }
  destruct (dget proto vd) as [pv|] eqn:P; [|apply NONE; intros v [pd [K _]]; rewrite P in K; discriminate K].
  destruct pv as [|b|z|s|l|pd]; try (apply NONE; intros v [q [K _]]; rewrite P in K; discriminate K).
  unfold default_data. destruct (dget "default" pd) as [v|] eqn:D.
  2:{ assert (SAME : dset proto (VDict pd) vd = vd) by (apply dset_id; exact P). rewrite SAME. apply NONE. intros v [q [K1 K2]]. rewrite P in K1. injection K1 as K1. subst q. rewrite D in K2. discriminate K2. }
  assert (DEF : forall w, default_of vd w -> w = v).
  { intros w [q [K1 K2]]. rewrite P in K1. injection K1 as K1. subst q. rewrite D in K2. injection K2 as K2. symmetry. exact K2. }
  assert (DV : default_of vd v) by (exists pd; split; [exact P|exact D]).
  assert (SET : forall v1 e p, (v = VBool true -> v1 = VDict [("enabled", VBool true)]) -> ((forall b, v <> VBool b) -> v1 = v) -> v <> VBool false ->
    ((~ can_originate -> e = [DNotSupported vrf] /\ p = []) /\
     (can_originate -> (forall q, ~ policy_of v q) -> e = [] /\ p = []) /\
     (forall q, can_originate -> policy_of v q -> ~ policy_feature -> e = [DNoPolicy vrf] /\ p = []) /\
     (forall q, policy_of v q -> policy_feature -> e = [] /\ (forall s, q = VStr s -> s <> "" -> p = [s]) /\ ((forall s, q = VStr s -> s = "") -> p = []))) ->
    adjusted vrf vd (dset proto (VDict (dset "default" v1 pd)) vd, e, p)).
  { intros v1 e p V1 V2 NF R. unfold adjusted. cbn [fst snd]. split; [intros k K; apply dget_dset_other; exact K|]. split; [intros N; exfalso; exact (N v DV)|]. split.
    - intros q w Q W. rewrite P in Q. injection Q as Q. subst q. rewrite D in W. injection W as W. subst w. exists (dset "default" v1 pd). split; [apply dget_dset_same|]. split; [intros k K; apply dget_dset_other; exact K|]. split; [intros K; contradiction|]. rewrite dget_dset_same. split; intros K; f_equal; [apply V1|apply V2]; exact K.
    - intros w W NW. apply DEF in W. subst w. exact R. }
  assert (NPF : forall b, v = VBool b -> forall q, ~ policy_of v q) by (intros b K q [e [E _]]; rewrite K in E; discriminate E).
  assert (CAN : truthy_opt feature = true <-> can_originate) by apply truthy_opt_iff.
  (* values other than False *)
  assert (GEN : forall v1, (v = VBool true -> v1 = VDict [("enabled", VBool true)]) -> ((forall b, v <> VBool b) -> v1 = v) -> v <> VBool false -> (v1 = v \/ v = VBool true /\ v1 = VDict [("enabled", VBool true)]) ->
    adjusted vrf vd (let '(pd1, e, p) := (if truthy_opt feature then
        match v1 with
        | VDict e => match dget "policy" e with
            | None => (dset "default" v1 pd, [], [])
            | Some p => match feature with
                        | Some (VDict f) => if truthy_opt (dget "policy" f) then (dset "default" v1 pd, [], match p with VStr s => if String.eqb s "" then [] else [s] | _ => [] end)
                                            else (dset "default" v1 pd, [DNoPolicy vrf], [])
                        | _ => (dset "default" v1 pd, [DNoPolicy vrf], [])
                        end
            end
        | _ => (dset "default" v1 pd, [], [])
        end
      else (dset "default" v1 pd, [DNotSupported vrf], [])) in (dset proto (VDict pd1) vd, e, p))).
  { intros v1 V1 V2 NF V3. destruct (truthy_opt feature) eqn:T.
    - assert (C : can_originate) by (apply CAN; reflexivity).
      assert (NP : (forall q, ~ policy_of v q) -> adjusted vrf vd (dset proto (VDict (dset "default" v1 pd)) vd, [], [])).
      { intros N. apply SET; [exact V1|exact V2|exact NF|]. split; [intros K; contradiction|]. split; [intros _ _; split; reflexivity|]. split; [intros q _ K; exfalso; exact (N q K)|intros q K; exfalso; exact (N q K)]. }
      destruct v1 as [|b|z|s|l|e1] eqn:V1E; try (apply NP; intros q [e [E _]]; destruct V3 as [V3|[_ V3]]; [congruence|discriminate V3]).
      destruct (dget "policy" e1) as [p|] eqn:PE.
      + assert (VE : v = VDict e1) by (destruct V3 as [V3|[_ V3]]; [symmetry; exact V3|injection V3 as V3; subst e1; discriminate PE]).
        assert (PO : forall q, policy_of v q -> q = p) by (intros q [e [E Q]]; rewrite VE in E; injection E as E; subst e; rewrite PE in Q; injection Q as Q; symmetry; exact Q).
        assert (HP : policy_of v p) by (exists e1; split; [exact VE|exact PE]).
        assert (BAD : ~ policy_feature -> adjusted vrf vd (dset proto (VDict (dset "default" (VDict e1) pd)) vd, [DNoPolicy vrf], [])).
        { intros N. apply SET; [exact V1|exact V2|exact NF|]. split; [intros K; contradiction|]. split; [intros _ K; exfalso; exact (K p HP)|]. split; [intros q _ _ _; split; reflexivity|intros q _ K; contradiction]. }
        destruct feature as [f|] eqn:F; [|discriminate T]. destruct f as [|b|z|s|l|f]; try (apply BAD; intros K; apply policy_feature_iff in K; destruct K as [g [G _]]; rewrite F in G; discriminate G).
        destruct (truthy_opt (dget "policy" f)) eqn:TP.
        * assert (PF : policy_feature) by (apply policy_feature_iff; exists f; split; [exact F|exact TP]). apply SET; [exact V1|exact V2|exact NF|]. split; [intros K; contradiction|]. split; [intros _ K; exfalso; exact (K p HP)|]. split; [intros q _ _ K; contradiction|]. intros q Q _. apply PO in Q. subst q. split; [reflexivity|]. split.
          -- intros s E NE. subst p. apply String.eqb_neq in NE. rewrite NE. reflexivity.
          -- intros K. destruct p as [|b|z|s|l|d]; try reflexivity. rewrite (K s eq_refl). reflexivity.
        * apply BAD. intros K. apply policy_feature_iff in K. destruct K as [g [G K]]. rewrite F in G. injection G as G. subst g. rewrite TP in K. discriminate K.
      + apply NP. intros q [e [E Q]]. destruct V3 as [V3|[V3 _]]; [|rewrite V3 in E; discriminate E]. rewrite <- V3 in E. injection E as E. subst e. rewrite PE in Q. discriminate Q.
    - assert (C : ~ can_originate) by (intros K; apply CAN in K; discriminate K). apply SET; [exact V1|exact V2|exact NF|]. split; [intros _; split; reflexivity|]. split; [intros K; contradiction|]. split; [intros q K; contradiction|]. intros q _ K. exfalso. apply C. apply pf_can. exact K. }
  destruct v as [|b|z|s|l|d].
  - apply (GEN VNull); [discriminate|reflexivity|discriminate|left; reflexivity].
  - destruct b.
    + apply (GEN (VDict [("enabled", VBool true)])); [reflexivity|intros K; exfalso; apply (K true); reflexivity|discriminate|right; split; reflexivity].
    + clear GEN SET. unfold adjusted. cbn [fst snd]. split; [intros k K; apply dget_dset_other; exact K|]. split; [intros N; exfalso; exact (N _ DV)|]. split.
      * intros q w Q W. rewrite P in Q. injection Q as Q. subst q. rewrite D in W. injection W as W. subst w. exists (dpop "default" pd). split; [apply dget_dset_same|]. split; [intros k K; apply dget_dpop_other; exact K|]. split; [intros _; split; [apply dget_dpop_same|split; reflexivity]|]. split; [discriminate|intros K; exfalso; apply (K false); reflexivity].
      * intros w W NW. apply DEF in W. contradiction.
  - apply (GEN (VInt z)); [discriminate|reflexivity|discriminate|left; reflexivity].
  - apply (GEN (VStr s)); [discriminate|reflexivity|discriminate|left; reflexivity].
  - apply (GEN (VList l)); [discriminate|reflexivity|discriminate|left; reflexivity].
  - apply (GEN (VDict d)); [discriminate|reflexivity|discriminate|left; reflexivity].
Qed.

(* Default route requests of a node and its VRFs *)
Theorem default_route_exact : forall node vrfs node' vrfs' e p, default_route feature proto node vrfs = (node', vrfs', e, p) ->
  exists e0 p0 f, adjusted None node (node', e0, p0) /\ (forall x, In x vrfs -> adjusted (Some (fst x)) (snd x) (f x)) /\
    vrfs' = map (fun x => (fst x, fst (fst (f x)))) vrfs /\ e = e0 ++ flat_map (fun x => snd (fst (f x))) vrfs /\ p = p0 ++ flat_map (fun x => snd (f x)) vrfs.
Proof.
  intros node vrfs node' vrfs' e p H. unfold default_route in H. destruct (default_adjust feature proto None node) as [[n1 e1] p1] eqn:A. injection H as H1 H2 H3 H4. subst node' vrfs' e p.
  exists e1, p1, (fun x => default_adjust feature proto (Some (fst x)) (snd x)). split; [rewrite <- A; apply adjust_spec|]. split; [intros x _; apply adjust_spec|]. split; [reflexivity|]. split; reflexivity.
Qed.
End Default.

(* ------------------------------------------------------------------ *)
(* Routing protocols in VRFs                                            *)

(* 'protocol: False' is removed from VRFs, nothing else changes. *)
Theorem remove_blocks_exact : forall proto vrfs, Forall2 (fun x y => fst y = fst x /\ (forall k, k <> proto -> dget k (snd y) = dget k (snd x)) /\
    (dget proto (snd x) = Some (VBool false) -> dget proto (snd y) = None) /\ (dget proto (snd x) <> Some (VBool false) -> dget proto (snd y) = dget proto (snd x))) vrfs (remove_blocks proto vrfs).
Proof.
  intros proto vrfs. unfold remove_blocks. induction vrfs as [|[n v] vrfs IH]; cbn [map]; constructor; [|exact IH]. cbn [fst snd]. split; [reflexivity|].
  destruct (dget proto v) as [w|] eqn:W; [|split; [reflexivity|]; split; [discriminate|intros _; exact W]].
  assert (OTHER : w <> VBool false -> (forall k, k <> proto -> dget k v = dget k v) /\ (Some w = Some (VBool false) -> dget proto v = None) /\ (Some w <> Some (VBool false) -> dget proto v = Some w)).
  { intros N. split; [reflexivity|]. split; [intros K; injection K as K; contradiction|intros _; exact W]. }
  destruct w as [|[|]|z|s|l|d]; try (apply OTHER; discriminate). split; [intros k K; apply dget_dpop_other; exact K|]. split; [intros _; apply dget_dpop_same|]. intros K. exfalso. apply K. reflexivity.
Qed.

(* the VRF uses the protocol with the address family *)
Definition vrf_uses (af : option string) (v : svrf) : Prop := sv_proto v <> None /\ forall a, af = Some a -> In a (sv_af v).

Lemma uses_dec : forall af v, vrf_uses af v \/ ~ vrf_uses af v.
Proof.
  intros af v. unfold vrf_uses. destruct (sv_proto v) as [p|]; [|right; intros [K _]; apply K; reflexivity]. destruct af as [a|]; [|left; split; [discriminate|discriminate]].
  destruct (memS a (sv_af v)) eqn:M; [apply memS_true in M; left; split; [discriminate|intros b E; injection E as E; subst b; exact M]|apply memS_false in M; right; intros [_ K]; apply M; apply K; reflexivity].
Qed.

Lemma vrf_support_cons : forall af sup n v r, (~ vrf_uses af v -> vrf_support af sup ((n, v) :: r) = ((n, v) :: fst (vrf_support af sup r), snd (vrf_support af sup r))) /\
  (forall pa, vrf_uses af v -> sv_proto v = Some pa -> vrf_support af sup ((n, v) :: r) =
    if sup then ((n, match af with Some a => mk_sv (sv_af v) (Some (dset a (VBool true) pa)) | None => v end) :: fst (vrf_support af sup r), snd (vrf_support af sup r)) else ((n, v) :: r, Some n)).
Proof.
  intros af sup n v r. cbn [vrf_support]. cbv zeta. destruct (vrf_support af sup r) as [r1 e]. unfold vrf_uses. destruct (sv_proto v) as [pa|].
  - destruct af as [a|].
    + destruct (memS a (sv_af v)) eqn:M; cbn [negb fst snd].
      * apply memS_true in M. split; [intros K; exfalso; apply K; split; [discriminate|intros b E; injection E as E; subst b; exact M]|]. intros pb _ E. injection E as E. subst pb. reflexivity.
      * apply memS_false in M. split; [intros _; reflexivity|]. intros pb [_ K]. exfalso. apply M. apply K. reflexivity.
    + cbn [fst snd]. split; [intros K; exfalso; apply K; split; discriminate|]. intros pb _ E. injection E as E. subst pb. reflexivity.
  - cbn [fst snd]. split; [reflexivity|]. intros pb [K _]. exfalso. apply K. reflexivity.
Qed.

(* VRF support for a protocol: without it the first VRF using the protocol is reported and nothing changes, with it the address
   family is added to all of them. *)
Theorem vrf_support_exact : forall af sup vrfs vrfs' e, vrf_support af sup vrfs = (vrfs', e) ->
  (sup = false -> vrfs' = vrfs /\ ((exists a n v b, vrfs = a ++ (n, v) :: b /\ vrf_uses af v /\ (forall x, In x a -> ~ vrf_uses af (snd x)) /\ e = Some n) \/ (forall x, In x vrfs -> ~ vrf_uses af (snd x)) /\ e = None)) /\
  (sup = true -> e = None /\ Forall2 (fun x y => fst y = fst x /\ sv_af (snd y) = sv_af (snd x) /\ (~ vrf_uses af (snd x) \/ af = None -> snd y = snd x) /\
     (forall a pa, vrf_uses af (snd x) -> af = Some a -> sv_proto (snd x) = Some pa -> exists pa', sv_proto (snd y) = Some pa' /\ dget a pa' = Some (VBool true) /\ forall k, k <> a -> dget k pa' = dget k pa)) vrfs vrfs').
Proof.
  intros af sup. induction vrfs as [|[n v] r IH]; intros vrfs' e H.
  - injection H as H1 H2. subst vrfs' e. split; [intros _; split; [reflexivity|right; split; [intros x []|reflexivity]]|intros _; split; [reflexivity|constructor]].
  - destruct (vrf_support_cons af sup n v r) as [C1 C2]. destruct (vrf_support af sup r) as [r1 e1]. specialize (IH r1 e1 eq_refl). destruct IH as [IH1 IH2]. cbn [fst snd] in C1, C2. destruct (uses_dec af v) as [U|U].
    + destruct (sv_proto v) as [pa|] eqn:P; [|exfalso; apply (proj1 U); exact P]. rewrite (C2 pa U eq_refl) in H. clear C1 C2. destruct sup.
      * injection H as H1 H2. subst vrfs' e. split; [discriminate|]. intros _. destruct (IH2 eq_refl) as [E F]. split; [exact E|]. constructor; [|exact F]. cbn [fst snd]. split; [reflexivity|]. destruct af as [a|].
        -- cbn [sv_af sv_proto]. split; [reflexivity|]. split; [intros [K|K]; [contradiction|discriminate K]|]. intros b pb _ B PB. injection B as B. subst b. rewrite P in PB. injection PB as PB. subst pb. exists (dset a (VBool true) pa). split; [reflexivity|]. split; [apply dget_dset_same|]. intros k K. apply dget_dset_other. exact K.
        -- split; [reflexivity|]. split; [reflexivity|]. intros b pb _ B. discriminate B.
      * injection H as H1 H2. subst vrfs' e. split; [|discriminate]. intros _. split; [reflexivity|]. left. exists [], n, v, r. split; [reflexivity|]. split; [exact U|]. split; [intros x []|reflexivity].
    + rewrite (C1 U) in H. clear C1 C2. injection H as H1 H2. subst vrfs' e. split.
      * intros S. destruct (IH1 S) as [E1 E2]. subst r1. split; [reflexivity|]. destruct E2 as [[a [m [w [b [Q1 [Q2 [Q3 Q4]]]]]]]|[E2 E3]].
        -- left. exists ((n, v) :: a), m, w, b. split; [rewrite Q1; reflexivity|]. split; [exact Q2|]. split; [intros x [I|I]; [subst x; exact U|exact (Q3 x I)]|exact Q4].
        -- right. split; [intros x [I|I]; [subst x; exact U|exact (E2 x I)]|exact E3].
      * intros S. destruct (IH2 S) as [E F]. split; [exact E|]. constructor; [|exact F]. cbn [fst snd]. split; [reflexivity|]. split; [reflexivity|]. split; [reflexivity|]. intros a pa K. contradiction.
Qed.

(* ------------------------------------------------------------------ *)
(* Optional interface attributes                                        *)

(* the interface has the attribute of the protocol *)
Definition has_attr (proto kw : string) (i : iintf) : Prop := exists l, dget proto (ii_mods i) = Some l /\ In kw l.
(* names of interfaces with an attribute, in a table *)
Definition listed (d : dict (list string)) (kw n : string) : Prop := exists l, dget kw d = Some l /\ In n l.

Lemma append_listed : forall k x d kw n, listed (append_to_list k x d) kw n <-> listed d kw n \/ kw = k /\ n = x.
Proof.
  intros k x d kw n. unfold listed, append_to_list. destruct (dget k d) as [l|] eqn:G.
  - destruct (memS x l) eqn:M.
    + apply memS_true in M. split; [left; assumption|]. intros [H|[H1 H2]]; [exact H|]. subst kw n. exists l. split; [exact G|exact M].
    + destruct (String.eqb_spec kw k) as [K|K].
      * subst kw. rewrite dget_dset_same. split.
        -- intros [m [E I]]. injection E as E. subst m. apply in_app_or in I. destruct I as [I|[I|[]]]; [left; exists l; split; [exact G|exact I]|right; split; [reflexivity|symmetry; exact I]].
        -- intros [[m [E I]]|[_ H]]; exists (l ++ [x]); split; try reflexivity; apply in_or_app; [left; rewrite G in E; injection E as E; subst m; exact I|right; left; symmetry; exact H].
      * rewrite dget_dset_other by exact K. split; [left; assumption|]. intros [H|[H _]]; [exact H|contradiction].
  - destruct (String.eqb_spec kw k) as [K|K].
    + subst kw. rewrite dget_dset_same. split.
      * intros [m [E I]]. injection E as E. subst m. destruct I as [I|[]]. right. split; [reflexivity|symmetry; exact I].
      * intros [[m [E _]]|[_ H]]; [rewrite G in E; discriminate E|]. exists [x]. split; [reflexivity|left; symmetry; exact H].
    + rewrite dget_dset_other by exact K. split; [left; assumption|]. intros [H|[H _]]; [exact H|contradiction].
Qed.

Lemma append_good : forall k x d, (forall kw l, dget kw d = Some l -> NoDup l /\ l <> []) -> forall kw l, dget kw (append_to_list k x d) = Some l -> NoDup l /\ l <> [].
Proof.
  intros k x d G kw l. unfold append_to_list. destruct (dget k d) as [m|] eqn:E.
  - destruct (memS x m) eqn:M; [apply G|]. destruct (String.eqb_spec kw k) as [K|K]; [subst kw; rewrite dget_dset_same|rewrite dget_dset_other by exact K; apply G].
    intros H. injection H as H. subst l. destruct (G k m E) as [ND NE]. split; [|destruct m; discriminate]. apply memS_false in M. clear -ND M. induction m as [|y m IH]; cbn [app]; [constructor; [intros []|constructor]|]. apply NoDup_cons_iff in ND. destruct ND as [N1 N2]. constructor; [|apply IH; [intros K; apply M; right; exact K|exact N2]]. intros K. apply in_app_or in K. destruct K as [K|[K|[]]]; [exact (N1 K)|apply M; left; symmetry; exact K].
  - destruct (String.eqb_spec kw k) as [K|K]; [subst kw; rewrite dget_dset_same|rewrite dget_dset_other by exact K; apply G]. intros H. injection H as H. subst l. split; [constructor; [intros []|constructor]|discriminate].
Qed.

Lemma intf_step_spec : forall proto o f d i, ((forall kw l, dget kw d = Some l -> NoDup l /\ l <> []) -> forall kw l, dget kw (intf_step proto o f d i) = Some l -> NoDup l /\ l <> []) /\
  forall kw n, listed (intf_step proto o f d i) kw n <-> listed d kw n \/ n = ii_name i /\ has_attr proto kw i /\ In kw o /\ ~ In kw f.
Proof.
  intros proto o f d i. unfold intf_step, has_attr. destruct (dget proto (ii_mods i)) as [l|].
  2:{ split; [intros G; exact G|]. intros kw n. cbn [fold_left]. split; [left; assumption|]. intros [H|[_ [[l [E _]] _]]]; [exact H|discriminate E]. }
  assert (W : ((forall kw m, dget kw d = Some m -> NoDup m /\ m <> []) -> forall kw m, dget kw (fold_left (fun d1 kw0 => if memS kw0 o && negb (memS kw0 f) then append_to_list kw0 (ii_name i) d1 else d1) l d) = Some m -> NoDup m /\ m <> []) /\
    forall kw n, listed (fold_left (fun d1 kw0 => if memS kw0 o && negb (memS kw0 f) then append_to_list kw0 (ii_name i) d1 else d1) l d) kw n <-> listed d kw n \/ n = ii_name i /\ In kw l /\ In kw o /\ ~ In kw f).
  { revert d. induction l as [|x l IH]; intros d; cbn [fold_left].
    - split; [intros G; exact G|]. intros kw n. split; [left; assumption|]. intros [H|[_ [[] _]]]. exact H.
    - destruct (IH (if memS x o && negb (memS x f) then append_to_list x (ii_name i) d else d)) as [G L]. destruct (memS x o && negb (memS x f)) eqn:B.
      + apply andb_true_iff in B. destruct B as [B1 B2]. apply negb_true_iff in B2. apply memS_true in B1. apply memS_false in B2. split.
        * intros K. apply G. apply append_good. exact K.
        * intros kw n. rewrite L, append_listed. split.
          -- intros [[H|[H1 H2]]|[H1 [H2 H3]]]; [left; exact H|right; subst kw n; split; [reflexivity|split; [left; reflexivity|split; [exact B1|exact B2]]]|right; split; [exact H1|split; [right; exact H2|exact H3]]].
          -- intros [H|[H1 [[H2|H2] H3]]]; [left; left; exact H|left; right; split; [symmetry; exact H2|exact H1]|right; split; [exact H1|split; [exact H2|exact H3]]].
      + split; [exact G|]. intros kw n. rewrite L. split.
        * intros [H|[H1 [H2 H3]]]; [left; exact H|right; split; [exact H1|split; [right; exact H2|exact H3]]].
        * intros [H|[H1 [[H2|H2] [H3 H4]]]]; [left; exact H| |right; split; [exact H1|split; [exact H2|split; [exact H3|exact H4]]]]. subst x. exfalso. apply memS_true in H3. apply memS_false in H4. rewrite H3, H4 in B. discriminate B. }
  destruct W as [W1 W2]. split; [exact W1|]. intros kw n. rewrite W2. split.
  - intros [H|[H1 [H2 H3]]]; [left; exact H|right; split; [exact H1|split; [exists l; split; [reflexivity|exact H2]|exact H3]]].
  - intros [H|[H1 [[m [E H2]] H3]]]; [left; exact H|injection E as E; subst m; right; split; [exact H1|split; [exact H2|exact H3]]].
Qed.

(* Unsupported attributes of interfaces are reported with the interfaces. VRF interfaces are checked only when they have data with the key
   'proto' (no module has that name). *)
Theorem intf_support_exact : forall proto o features ifs vrfs r, intf_support proto (Some o) features ifs vrfs = r ->
  (forall kw n, listed r kw n <-> In kw o /\ ~ In kw features /\ exists i, ii_name i = n /\ has_attr proto kw i /\ (In i ifs \/ In "proto" (dkeys (ii_mods i)) /\ exists l, In l vrfs /\ In i l)) /\
  (forall kw l, dget kw r = Some l -> NoDup l /\ l <> []).
Proof.
  intros proto o features ifs vrfs r H. unfold intf_support in H. subst r.
  assert (F : forall l d, (forall kw m, dget kw d = Some m -> NoDup m /\ m <> []) ->
    (forall kw m, dget kw (fold_left (intf_step proto o features) l d) = Some m -> NoDup m /\ m <> []) /\
    forall kw n, listed (fold_left (intf_step proto o features) l d) kw n <-> listed d kw n \/ exists i, In i l /\ n = ii_name i /\ has_attr proto kw i /\ In kw o /\ ~ In kw features).
  { induction l as [|i l IH]; intros d G; cbn [fold_left].
    - split; [exact G|]. intros kw n. split; [left; assumption|]. intros [K|[i [[] _]]]. exact K.
    - destruct (intf_step_spec proto o features d i) as [S1 S2]. destruct (IH _ (S1 G)) as [I1 I2]. split; [exact I1|]. intros kw n. rewrite I2, S2. split.
      + intros [[K|K]|[j [J K]]]; [left; exact K|right; exists i; split; [left; reflexivity|exact K]|right; exists j; split; [right; exact J|exact K]].
      + intros [K|[j [[J|J] K]]]; [left; left; exact K|left; right; subst j; exact K|right; exists j; split; [exact J|exact K]]. }
  destruct (F (igp_interfaces proto ifs vrfs) []) as [F1 F2]; [intros kw m K; discriminate K|]. split; [|exact F1]. intros kw n. rewrite F2.
  assert (IN : forall i, has_attr proto kw i -> (In i (igp_interfaces proto ifs vrfs) <-> In i ifs \/ In "proto" (dkeys (ii_mods i)) /\ exists l, In l vrfs /\ In i l)).
  { intros i [l0 [A _]]. unfold igp_interfaces. rewrite in_app_iff, filter_In, in_flat_map. split.
    - intros [[K _]|[l [L K]]]; [left; exact K|]. apply filter_In in K. destruct K as [K1 K2]. apply dmem_true in K2. right. split; [exact K2|]. exists l. split; [exact L|exact K1].
    - intros [K|[K [l [L J]]]]; [left; split; [exact K|]; apply dmem_true; apply (dget_Some_key _ _ A)|]. right. exists l. split; [exact L|]. apply filter_In. split; [exact J|]. apply dmem_true. exact K. }
  split.
  - intros [[l [K _]]|[i [I [N [A [O NF]]]]]]; [discriminate K|]. split; [exact O|]. split; [exact NF|]. exists i. split; [symmetry; exact N|]. split; [exact A|]. apply (IN i A). exact I.
  - intros [O [NF [i [N [A I]]]]]. right. exists i. split; [apply (IN i A); exact I|]. split; [symmetry; exact N|]. split; [exact A|]. split; [exact O|exact NF].
Qed.

(* An unsupported attribute of a VRF interface is not reported. *)
Theorem intf_vrf_support_refuted : exists proto o features i, In proto (dkeys (ii_mods i)) /\ (exists kw, has_attr proto kw i /\ In kw o /\ ~ In kw features) /\ intf_support proto (Some o) features [] [[i]] = [].
Proof.
  exists "ospf", ["timers"; "priority"], ["priority"], (mk_ii "eth1" [("ospf", ["area"; "timers"])]). split; [left; reflexivity|]. split; [|reflexivity].
  exists "timers". split; [exists ["area"; "timers"]; split; [reflexivity|right; left; reflexivity]|]. split; [left; reflexivity|]. intros [K|[]]. discriminate K.
Qed.

(* ------------------------------------------------------------------ *)
(* Node attributes copied into interfaces                               *)

Lemma badd_mdict : forall a b, badd a b = mdict a b.
Proof. intros a b. unfold badd. rewrite merge_dicts. reflexivity. Qed.

(* the attribute of a dictionary that can be copied *)
Definition copied_attr (l : list string) (d : dict val) (k : string) (v : option val) : Prop := (In k l -> v = dget k d) /\ (~ In k l -> v = None).
(* VRF data of the module for an interface *)
Definition vrf_data (m : string) (vrfs : dict (dict val)) (vrf : option val) (d : dict val) : Prop :=
  (exists v vd, vrf = Some (VStr v) /\ dget v vrfs = Some vd /\ dget m vd = Some (VDict d)) \/
  ((forall v vd e, vrf = Some (VStr v) -> dget v vrfs = Some vd -> dget m vd <> Some (VDict e)) /\ d = []).
(* module data of an interface before and after: interface attributes are added to VRF attributes added to node attributes *)
Definition copy_rel (m : string) (nc va : list string) (node : dict val) (vrfs : dict (dict val)) (vrf own new : option val) : Prop :=
  ((exists v, own = Some v /\ is_dict v = false) -> new = own) /\
  (forall d, (own = Some (VDict d) \/ own = None /\ d = []) -> exists vd, vrf_data m vrfs vrf vd /\
     ((forall k, copied_attr nc node k None /\ copied_attr va vd k None) -> new = own) /\
     (~ (forall k, copied_attr nc node k None /\ copied_attr va vd k None) -> exists d', new = Some (VDict d') /\
        forall k x y, copied_attr nc node k x -> copied_attr va vd k y -> dget k d' = mopt (mopt x y) (dget k d))).

Lemma dget_pick : forall l d k, copied_attr l d k (dget k (pick l d)).
Proof.
  intros l d k. unfold copied_attr, pick. induction d as [|[x v] d [IH1 IH2]]; cbn [filter dget fst]; [split; reflexivity|]. destruct (memS x l) eqn:M; cbn [dget]; destruct (String.eqb_spec k x) as [K|K].
  - subst x. apply memS_true in M. split; [reflexivity|contradiction].
  - split; assumption.
  - subst x. apply memS_false in M. split; [contradiction|exact IH2].
  - split; assumption.
Qed.

Lemma copied_fun : forall l d k a b, copied_attr l d k a -> copied_attr l d k b -> a = b.
Proof. intros l d k a b [A1 A2] [B1 B2]. destruct (in_dec string_dec k l) as [I|I]; [rewrite (A1 I), (B1 I)|rewrite (A2 I), (B2 I)]; reflexivity. Qed.

Lemma pick_keys : forall l d, NoDup (dkeys d) -> NoDup (dkeys (pick l d)).
Proof.
  intros l d. unfold pick, dkeys. induction d as [|[x v] d IH]; cbn [filter map fst]; intros ND; [constructor|]. apply NoDup_cons_iff in ND. destruct ND as [N1 N2]. destruct (memS x l); [|exact (IH N2)]. cbn [map fst]. constructor; [|exact (IH N2)]. intros K. apply N1. apply in_map_iff in K. destruct K as [y [E I]]. apply filter_In in I. apply in_map_iff. exists y. split; [exact E|exact (proj1 I)].
Qed.

Lemma pick_nil : forall l d, pick l d = [] <-> forall k, copied_attr l d k None.
Proof.
  intros l d. split.
  - intros E k. pose proof (dget_pick l d k) as P. rewrite E in P. exact P.
  - intros H. destruct (pick l d) as [|[k v] r] eqn:E; [reflexivity|]. pose proof (copied_fun _ _ _ _ _ (H k) (dget_pick l d k)) as K. rewrite E in K. cbn [dget] in K. rewrite String.eqb_refl in K. discriminate K.
Qed.

Lemma copy_intf_spec : forall m nc va node vrfs i, (forall v vd d, dget v vrfs = Some vd -> dget m vd = Some (VDict d) -> NoDup (dkeys d)) -> (forall d, dget m i = Some (VDict d) -> NoDup (dkeys d)) ->
  copy_rel m nc va node vrfs (dget "vrf" i) (dget m i) (dget m (copy_intf m nc va node vrfs i)) /\ forall k, k <> m -> dget k (copy_intf m nc va node vrfs i) = dget k i.
Proof.
  intros m nc va node vrfs i NV NI.
  assert (COPY : forall vd, vrf_data m vrfs (dget "vrf" i) vd -> NoDup (dkeys vd) -> (dget m i = None \/ exists d, dget m i = Some (VDict d)) ->
    forall r, r = match pick nc node, pick va vd with [], [] => i | _, _ => dset m (VDict (badd (badd (pick nc node) (pick va vd)) (match dget m i with Some (VDict d) => d | _ => [] end))) i end ->
    copy_rel m nc va node vrfs (dget "vrf" i) (dget m i) (dget m r) /\ forall k, k <> m -> dget k r = dget k i).
  { intros vd VD NVD OWN r R.
    assert (CASES : (pick nc node = [] /\ pick va vd = [] /\ r = i) \/ (~ (pick nc node = [] /\ pick va vd = []) /\ r = dset m (VDict (badd (badd (pick nc node) (pick va vd)) (match dget m i with Some (VDict d) => d | _ => [] end))) i)).
    { destruct (pick nc node) as [|a l]; destruct (pick va vd) as [|b l2]; [left; split; [reflexivity|split; [reflexivity|exact R]]|right; split; [intros [_ K]; discriminate K|exact R]|right; split; [intros [K _]; discriminate K|exact R]|right; split; [intros [K _]; discriminate K|exact R]]. }
    clear R. assert (ALL : (forall k, copied_attr nc node k None /\ copied_attr va vd k None) <-> pick nc node = [] /\ pick va vd = []).
    { rewrite !pick_nil. split; [intros K; split; intros k; apply K|intros [K1 K2] k; split; [apply K1|apply K2]]. }
    split.
    - unfold copy_rel. split.
      + intros [v [E D]]. destruct OWN as [O|[d O]]; rewrite O in E; [discriminate E|]. injection E as E. subst v. discriminate D.
      + intros d OD. exists vd. split; [exact VD|]. split.
        * intros K. apply ALL in K. destruct CASES as [[_ [_ E]]|[N _]]; [rewrite E; reflexivity|contradiction].
        * intros K. destruct CASES as [[E1 [E2 _]]|[_ E]]; [exfalso; apply K; apply ALL; split; assumption|].
          assert (E2 : r = dset m (VDict (badd (badd (pick nc node) (pick va vd)) d)) i) by (rewrite E; destruct OD as [OD|[OD1 OD2]]; [rewrite OD; reflexivity|rewrite OD1, OD2; reflexivity]). clear E.
          assert (NDD : NoDup (dkeys d)) by (destruct OD as [OD|[_ OD2]]; [exact (NI d OD)|rewrite OD2; constructor]).
          exists (badd (badd (pick nc node) (pick va vd)) d). split; [rewrite E2; apply dget_dset_same|]. intros k x y X Y. rewrite !badd_mdict. rewrite dget_mdict by exact NDD. rewrite dget_mdict by (apply pick_keys; exact NVD).
          rewrite (copied_fun _ _ _ _ _ X (dget_pick nc node k)), (copied_fun _ _ _ _ _ Y (dget_pick va vd k)). reflexivity.
    - intros k K. destruct CASES as [[_ [_ E]]|[_ E]]; rewrite E; [reflexivity|]. apply dget_dset_other. exact K. }
  assert (PN : pick va [] = []) by reflexivity.
  assert (GO : (dget m i = None \/ exists d, dget m i = Some (VDict d)) -> forall r, r =
     (let copy vrf_attr := match pick nc node, vrf_attr with [], [] => i | _, _ => dset m (VDict (badd (badd (pick nc node) vrf_attr) (match dget m i with Some (VDict d) => d | _ => [] end))) i end in
      match dget "vrf" i with
      | Some (VStr v) => match va with [] => copy [] | _ => copy (match dget v vrfs with Some vd => match dget m vd with Some (VDict d) => pick va d | _ => [] end | None => [] end) end
      | _ => copy []
      end) -> copy_rel m nc va node vrfs (dget "vrf" i) (dget m i) (dget m r) /\ forall k, k <> m -> dget k r = dget k i).
  { intros OWN r R. cbv zeta in R.
    assert (NOVRF : (forall v vd e, dget "vrf" i = Some (VStr v) -> dget v vrfs = Some vd -> dget m vd <> Some (VDict e)) -> forall r0, r0 = match pick nc node, @nil (string * val) with [], [] => i | _, _ => dset m (VDict (badd (badd (pick nc node) []) (match dget m i with Some (VDict d) => d | _ => [] end))) i end -> copy_rel m nc va node vrfs (dget "vrf" i) (dget m i) (dget m r0) /\ forall k, k <> m -> dget k r0 = dget k i).
    { intros N r0 E. apply (COPY [] (or_intror (conj N eq_refl)) (NoDup_nil _) OWN). rewrite PN. exact E. }
    destruct (dget "vrf" i) as [w|] eqn:W; [|apply NOVRF; [discriminate|exact R]]. destruct w as [|b|z|v|l|e]; try (apply NOVRF; [discriminate|exact R]).
    destruct (dget v vrfs) as [vd|] eqn:V.
    - destruct (dget m vd) as [x|] eqn:X.
      + destruct x as [|b|z|s|l|d]; try (apply NOVRF; [intros v0 vd0 e0 E1 E2; injection E1 as E1; subst v0; rewrite V in E2; injection E2 as E2; subst vd0; rewrite X; discriminate|destruct va; exact R]).
        refine (COPY d _ _ OWN r _); [left; exists v, vd; split; [reflexivity|split; [exact V|exact X]]|exact (NV v vd d V X)|]. destruct va as [|y va]; [|exact R]. replace (pick [] d) with (@nil (string * val)); [exact R|]. clear. induction d as [|z d IH]; [reflexivity|exact IH].
      + apply NOVRF; [intros v0 vd0 e0 E1 E2; injection E1 as E1; subst v0; rewrite V in E2; injection E2 as E2; subst vd0; rewrite X; discriminate|destruct va; exact R].
    - apply NOVRF; [intros v0 vd0 e0 E1 E2; injection E1 as E1; subst v0; rewrite V in E2; discriminate E2|destruct va; exact R]. }
  assert (KEEP : forall v, dget m i = Some v -> is_dict v = false -> copy_rel m nc va node vrfs (dget "vrf" i) (dget m i) (dget m i) /\ forall k, k <> m -> dget k i = dget k i).
  { intros v V D. split; [|reflexivity]. split; [reflexivity|]. intros d [O|[O _]]; rewrite V in O; [injection O as O; subst v; discriminate D|discriminate O]. }
  unfold copy_intf. cbv zeta in GO |- *. destruct (dget m i) as [v|] eqn:V.
  - destruct v as [|b|z|s|l|d]; try (cbv beta iota; rewrite V; apply (KEEP _ eq_refl); reflexivity). apply (GO (or_intror (ex_intro _ d eq_refl)) _ eq_refl).
  - apply (GO (or_introl eq_refl) _ eq_refl).
Qed.

Lemma Forall2_impl_in : forall {A B} (P Q : A -> B -> Prop) l r, (forall i j, In i l -> P i j -> Q i j) -> Forall2 P l r -> Forall2 Q l r.
Proof. intros A B P Q l r H F. induction F as [|i j l r X F IH]; constructor; [apply H; [left; reflexivity|exact X]|apply IH; intros a b I; apply H; right; exact I]. Qed.

Lemma Forall2_map_left : forall {A B C} (f : A -> B) (P : B -> C -> Prop) l r, Forall2 P (map f l) r -> Forall2 (fun i j => P (f i) j) l r.
Proof. intros A B C f P. induction l as [|i l IH]; intros r F; cbn [map] in F; inversion F as [|a b x y X Y]; constructor; [exact X|apply IH; exact Y]. Qed.

(* Node attributes are copied into all interfaces of a node for all its modules; values of interfaces win over VRF values, and
   those over node values. *)
Theorem copy_node_exact : forall attrs mods node vrfs ifs, NoDup mods -> fst (attrs "vrf") = [] ->
  (forall v vd m d, dget v vrfs = Some vd -> dget m vd = Some (VDict d) -> NoDup (dkeys d)) -> (forall i m d, In i ifs -> In m mods -> dget m i = Some (VDict d) -> NoDup (dkeys d)) ->
  Forall2 (fun i j => (forall k, ~ In k mods \/ fst (attrs k) = [] -> dget k j = dget k i) /\
    forall m, In m mods -> fst (attrs m) <> [] -> exists nd, (dget m node = Some (VDict nd) \/ (forall d, dget m node <> Some (VDict d)) /\ nd = []) /\
      copy_rel m (fst (attrs m)) (snd (attrs m)) nd vrfs (dget "vrf" i) (dget m i) (dget m j)) ifs (copy_node attrs mods node vrfs ifs).
Proof.
  intros attrs mods node vrfs. unfold copy_node. induction mods as [|m mods IH]; intros ifs ND VR NV NI; cbn [fold_left].
  - clear. induction ifs as [|i ifs IH]; constructor; [|exact IH]. split; [reflexivity|intros m []].
  - apply NoDup_cons_iff in ND. destruct ND as [N1 N2]. destruct (fst (attrs m)) as [|x nc] eqn:A.
    + specialize (IH ifs N2 VR NV (fun i m0 d I M D => NI i m0 d I (or_intror M) D)). revert IH. apply Forall2_impl_in. intros i j _ [H1 H2]. split.
      * intros k [K|K]; apply H1; [left; intros C; apply K; right; exact C|right; exact K].
      * intros m0 [M|M] E; [subst m0; contradiction|exact (H2 m0 M E)].
    + set (nd := match dget m node return dict val with Some (VDict d) => d | _ => [] end). assert (NDS : dget m node = Some (VDict nd) \/ (forall d, dget m node <> Some (VDict d)) /\ nd = []).
      { unfold nd. destruct (dget m node) as [v|]; [|right; split; [discriminate|reflexivity]]. destruct v; try (right; split; [discriminate|reflexivity]). left. reflexivity. }
      clearbody nd. rewrite <- A. set (f := copy_intf m (fst (attrs m)) (snd (attrs m)) nd vrfs).
      assert (STEP : forall i, In i ifs -> copy_rel m (fst (attrs m)) (snd (attrs m)) nd vrfs (dget "vrf" i) (dget m i) (dget m (f i)) /\ forall k, k <> m -> dget k (f i) = dget k i).
      { intros i I. apply copy_intf_spec; [intros v vd d; apply NV|intros d D; exact (NI i m d I (or_introl eq_refl) D)]. }
      assert (MV : "vrf" <> m) by (intros K; subst m; rewrite VR in A; discriminate A). clearbody f.
      assert (PRE : forall i m0 d, In i (map f ifs) -> In m0 mods -> dget m0 i = Some (VDict d) -> NoDup (dkeys d)).
      { intros i m0 d I M0 D. apply in_map_iff in I. destruct I as [i0 [E I]]. subst i. assert (NM : m0 <> m) by (intros K; subst m0; contradiction). rewrite (proj2 (STEP i0 I) m0 NM) in D. exact (NI i0 m0 d I (or_intror M0) D). }
      specialize (IH (map f ifs) N2 VR NV PRE). apply Forall2_map_left in IH. revert IH. apply Forall2_impl_in. intros i j I [H1 H2]. destruct (STEP i I) as [S1 S2]. split.
      * intros k K. assert (KM : k <> m) by (intros C; subst k; destruct K as [K|K]; [apply K; left; reflexivity|rewrite K in A; discriminate A]). rewrite <- (S2 k KM). apply H1. destruct K as [K|K]; [left; intros C; apply K; right; exact C|right; exact K].
      * intros m0 [M|M] E.
        -- subst m0. exists nd. split; [exact NDS|]. rewrite (H1 m (or_introl N1)). exact S1.
        -- assert (NM : m0 <> m) by (intros K; subst m0; contradiction). rewrite <- (S2 m0 NM), <- (S2 "vrf" MV). exact (H2 m0 M E).
Qed.

(* ------------------------------------------------------------------ *)
(* Examples                                                             *)

Definition ex_imports : dict val := [("bgp", VBool true); ("isis", VBool true); ("eigrp", VBool true); ("ripv2", VDict [("policy", VStr "rp")]); ("connected", VBool false); ("ospf", VBool true)].

Example ex_import : check_import (FList ["bgp"; "isis"; "ripv2"; "connected"; "ospf"; "vrf"]) "ospf" ["ospf"; "bgp"; "ripv2"] ex_imports =
    Some ([("bgp", VDict []); ("isis", VDict []); ("eigrp", VBool true); ("ospf", VDict []); ("rip", VDict [("policy", VStr "rp")])], [INotRunning "isis"; ICannot "eigrp"; ISelf "ospf"], ["rp"]) /\
  check_import (FList ["bgp"; "ripv2"; "connected"; "no_policy"]) "ospf" ["ospf"; "bgp"; "ripv2"] ex_imports =
    Some ([("bgp", VDict []); ("isis", VBool true); ("eigrp", VBool true); ("connected", VBool false); ("ospf", VBool true); ("rip", VDict [("policy", VStr "rp")])], [ICannot "isis"; ICannot "eigrp"; INoPolicy "ripv2"], []).
Proof. vm_compute. split; reflexivity. Qed.

Example ex_quiet : quiet (FList ["bgp"; "isis"; "ripv2"; "connected"; "ospf"; "vrf"]) "ospf" ["ospf"; "bgp"; "ripv2"] ex_imports /\
  no_policies (FList ["bgp"; "ripv2"; "connected"; "no_policy"]) /\ uses_policy (FList ["bgp"; "ripv2"; "connected"; "no_policy"]) "ospf" ["ospf"; "bgp"; "ripv2"] ("ripv2", VDict [("policy", VStr "rp")]) (VStr "rp") /\ NoDup (dkeys ex_imports).
Proof.
  split; [|split; [|split]].
  - right. split; [eexists; reflexivity|]. intros [l [E I]]. injection E as E. subst l. repeat (destruct I as [I|I]; [discriminate I|]). exact I.
  - eexists. split; [reflexivity|]. do 3 right. left. reflexivity.
  - split; [right; eexists; split; [reflexivity|right; left; reflexivity]|]. split; [left; do 2 right; left; reflexivity|]. split; [discriminate|]. split; [reflexivity|]. eexists. split; reflexivity.
  - apply (NoDup_count_occ' string_dec). intros x I. repeat (destruct I as [I|I]; [subst x; reflexivity|]). destruct I.
Qed.

Example ex_default : default_route (Some (VDict [("policy", VBool true)])) "ospf" [("ospf", VDict [("area", VInt 0); ("default", VBool true)]); ("id", VInt 1)]
    [("red", [("ospf", VDict [("default", VDict [("policy", VStr "rp")])])]); ("blue", [("ospf", VDict [("default", VBool false)])]); ("green", [("rd", VStr "65000:1")])] =
  ([("ospf", VDict [("area", VInt 0); ("default", VDict [("enabled", VBool true)])]); ("id", VInt 1)],
   [("red", [("ospf", VDict [("default", VDict [("policy", VStr "rp")])])]); ("blue", [("ospf", VDict [])]); ("green", [("rd", VStr "65000:1")])], [], ["rp"]) /\
  snd (fst (default_route (Some (VBool true)) "ospf" [("ospf", VDict [("default", VDict [("policy", VStr "rp")])])] [("red", [("ospf", VDict [("default", VBool true)])])])) = [DNoPolicy None] /\
  snd (fst (default_route None "ospf" [("ospf", VDict [("default", VBool true)])] [("red", [("ospf", VDict [("default", VBool true)])])])) = [DNotSupported None; DNotSupported (Some "red")].
Proof. vm_compute. repeat split. Qed.

Example ex_blocks : remove_blocks "ospf" [("red", [("ospf", VBool false); ("bgp", VBool false)]); ("blue", [("ospf", VDict [])])] = [("red", [("bgp", VBool false)]); ("blue", [("ospf", VDict [])])].
Proof. reflexivity. Qed.

Definition ex_vrfs : dict svrf := [("red", mk_sv ["ipv4"] (Some [])); ("blue", mk_sv ["ipv4"; "ipv6"] (Some [("ipv4", VBool true)])); ("green", mk_sv ["ipv6"] None)].
Example ex_support : vrf_support (Some "ipv6") true ex_vrfs = ([("red", mk_sv ["ipv4"] (Some [])); ("blue", mk_sv ["ipv4"; "ipv6"] (Some [("ipv4", VBool true); ("ipv6", VBool true)])); ("green", mk_sv ["ipv6"] None)], None) /\
  vrf_support (Some "ipv6") false ex_vrfs = (ex_vrfs, Some "blue") /\ vrf_support None false ex_vrfs = (ex_vrfs, Some "red").
Proof. vm_compute. repeat split. Qed.

Example ex_intf : intf_support "ospf" (Some ["timers"; "priority"; "password"]) ["priority"]
    [mk_ii "eth1" [("ospf", ["area"; "timers"; "priority"])]; mk_ii "eth2" [("isis", ["timers"])]; mk_ii "eth3" [("ospf", ["password"; "timers"])]] [[mk_ii "eth4" [("ospf", ["timers"])]]] =
  [("timers", ["eth1"; "eth3"]); ("password", ["eth3"])].
Proof. reflexivity. Qed.

Definition ex_attrs (m : string) : list string * list string := if String.eqb m "ospf" then (["area"; "passive"; "timers"], ["area"]) else ([], []).
Definition ex_intfs : list (dict val) :=
  [ [("vrf", VStr "red")]; [("ospf", VDict [("area", VInt 7); ("timers", VDict [("hello", VInt 1)])])]; [("ospf", VBool false)] ].
Example ex_copy : copy_node ex_attrs ["bgp"; "ospf"] [("ospf", VDict [("area", VInt 1); ("timers", VDict [("dead", VInt 9)]); ("process", VInt 3)])] [("red", [("ospf", VDict [("area", VInt 2); ("process", VInt 4)])])] ex_intfs =
  [ [("vrf", VStr "red"); ("ospf", VDict [("area", VInt 2); ("timers", VDict [("dead", VInt 9)])])];
    [("ospf", VDict [("area", VInt 7); ("timers", VDict [("dead", VInt 9); ("hello", VInt 1)])])]; [("ospf", VBool false)] ].
Proof. vm_compute. reflexivity. Qed.

Print Assumptions check_import_exact.
Print Assumptions import_no_policy_exact.
Print Assumptions import_unsupported.
Print Assumptions import_policy_refuted.
Print Assumptions default_route_exact.
Print Assumptions remove_blocks_exact.
Print Assumptions vrf_support_exact.
Print Assumptions intf_support_exact.
Print Assumptions intf_vrf_support_refuted.
Print Assumptions copy_node_exact.
