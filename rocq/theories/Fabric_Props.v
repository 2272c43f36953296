(* Properties C148 and C149: links, nodes and groups created by the fabric plugin. *)
From Coq Require Import String Ascii ZArith Lia Bool List Sorted FinFun.
From Verif Require Import Base Box_Model Box_Props Text_Model Text_Props Types_Model Types_Props Intf_Model Intf_Props
  Lnk_Model Lnk_Props Vlan_Model Vlan_Props Vlink_Model Vmember_Props Vtest_Props Clone_Model Fabric_Model.
Import ListNotations.
Local Open Scope string_scope.
Local Open Scope list_scope.
Local Open Scope nat_scope.

(* ---------- parameters of a layer ---------- *)

(* a format string contains an opening brace *)
Definition template (s : string) : Prop := exists a b, s = (a ++ "{" ++ b)%string.

Lemma has_brace_spec : forall s, has_brace s = true <-> template s.
Proof.
  induction s as [|c r IH]; cbn [has_brace].
  - split; [discriminate|]. intros [a [b E]]. destruct a; discriminate E.
  - rewrite orb_true_iff, IH. split.
    + intros [H|[a [b E]]].
      * apply Ascii.eqb_eq in H. subst c. exists "", r. reflexivity.
      * subst r. exists (String c a), b. reflexivity.
    + intros [a [b E]]. destruct a as [|x a]; cbn in E; injection E as E1 E2.
      * left. subst c. apply Ascii.eqb_refl.
      * right. exists a, b. exact E2.
Qed.

Definition xgo (fmt : bool) : list (string * val) -> list (string * val) :=
  fix go (d : list (string * val)) : list (string * val) :=
  match d with
  | [] => []
  | (k, x) :: r =>
      match x with
      | VDict _ =>
          let x' := extract_params fmt x in
          if negb (truthy x') && fmt then go r else (k, x') :: go r
      | VStr s => if Bool.eqb (has_brace s) fmt then (k, x) :: go r else go r
      | _ => if fmt then go r else (k, x) :: go r
      end
  end.

Lemma extract_dict : forall fmt d, extract_params fmt (VDict d) = VDict (xgo fmt d).
Proof. intros fmt d. reflexivity. Qed.

Definition xval (fmt : bool) (x : val) : option val :=
  match x with
  | VDict _ => let x' := extract_params fmt x in if negb (truthy x') && fmt then None else Some x'
  | VStr s => if Bool.eqb (has_brace s) fmt then Some x else None
  | _ => if fmt then None else Some x
  end.

Lemma xgo_cons : forall fmt k x r,
  xgo fmt ((k, x) :: r) = match xval fmt x with Some y => (k, y) :: xgo fmt r | None => xgo fmt r end.
Proof.
  intros fmt k x r. unfold xgo at 1. unfold xval. destruct x; try (destruct fmt; reflexivity).
  - destruct (Bool.eqb (has_brace s) fmt); reflexivity.
  - cbv zeta. destruct (negb (truthy (extract_params fmt (VDict d))) && fmt); reflexivity.
Qed.

Lemma xgo_keys : forall fmt d k, In k (dkeys (xgo fmt d)) -> In k (dkeys d).
Proof.
  intros fmt. induction d as [|[j x] r IH]; intros k I; [exact I|]. rewrite xgo_cons in I.
  destruct (xval fmt x) as [y|]; [|right; apply IH; exact I]. destruct I as [I|I]; [left; exact I|right; apply IH; exact I].
Qed.

Lemma xgo_NoDup : forall fmt d, NoDup (dkeys d) -> NoDup (dkeys (xgo fmt d)).
Proof.
  intros fmt. induction d as [|[j x] r IH]; intros N; [exact N|]. inversion N as [|? ? N1 N2]; subst. rewrite xgo_cons.
  destruct (xval fmt x) as [y|]; [|apply IH; exact N2]. constructor; [|apply IH; exact N2].
  intros I. apply N1. exact (xgo_keys fmt r j I).
Qed.

Lemma xgo_dget : forall fmt d k, NoDup (dkeys d) ->
  dget k (xgo fmt d) = match dget k d with Some x => xval fmt x | None => None end.
Proof.
  intros fmt. induction d as [|[j x] r IH]; intros k N; [reflexivity|]. inversion N as [|? ? N1 N2]; subst.
  rewrite xgo_cons. cbn [dget]. destruct (String.eqb_spec k j) as [E|E].
  - subst j. destruct (xval fmt x) as [y|].
    + cbn [dget]. rewrite String.eqb_refl. reflexivity.
    + apply dget_None. intros I. apply N1. exact (xgo_keys fmt r k I).
  - destruct (xval fmt x) as [y|]; [|apply IH; exact N2]. cbn [dget].
    destruct (String.eqb_spec k j) as [Q|Q]; [contradiction|]. apply IH; exact N2.
Qed.

Definition selected (fmt : bool) (v : val) : Prop :=
  if fmt then exists s, v = VStr s /\ template s else forall s, v = VStr s -> ~ template s.

Lemma leaf_cons : forall k p d v, leaf (k :: p) (VDict d) v <-> exists x, dget k d = Some x /\ leaf p x v.
Proof.
  intros k p d v. unfold leaf. cbn [lookup]. destruct (dget k d) as [x|].
  - split; [intros H; exists x; split; [reflexivity|exact H]|]. intros [y [E H]]. injection E as E. subst y. exact H.
  - split; [intros [H _]; discriminate H|]. intros [y [E _]]. discriminate E.
Qed.

Lemma leaf_scalar : forall p x v, is_dict x = false -> (leaf p x v <-> p = [] /\ v = x).
Proof.
  intros p x v S. unfold leaf. destruct p as [|k p]; cbn [lookup].
  - split; [intros [H _]; injection H as H; split; [reflexivity|congruence]|]. intros [_ E]. subst v. split; [reflexivity|exact S].
  - split; [|intros [E _]; discriminate E]. destruct x; try (intros [H _]; discriminate H). discriminate S.
Qed.

Lemma selected_scalar : forall fmt x, is_dict x = false ->
  (selected fmt x /\ xval fmt x = Some x) \/ (~ selected fmt x /\ xval fmt x = None).
Proof.
  intros fmt x S. destruct x; try discriminate S;
    try (destruct fmt; cbn [selected xval]; [right; split; [intros [s' [E _]]; discriminate E|reflexivity]|
                                             left; split; [intros s' E; discriminate E|reflexivity]]).
  unfold selected, xval. destruct (has_brace s) eqn:B.
  - pose proof (proj1 (has_brace_spec s) B) as T. destruct fmt; cbn [Bool.eqb].
    + left. split; [exists s; split; [reflexivity|exact T]|reflexivity].
    + right. split; [intros H; exact (H s eq_refl T)|reflexivity].
  - assert (T : ~ template s) by (intros T; apply has_brace_spec in T; congruence). destruct fmt; cbn [Bool.eqb].
    + right. split; [intros [s' [E H]]; injection E as E; subst s'; contradiction|reflexivity].
    + left. split; [intros s' E; injection E as E; subst s'; exact T|reflexivity].
Qed.

Lemma extract_leaves : forall fmt v, is_dict v = true -> wf v -> forall p w,
  leaf p (extract_params fmt v) w <-> leaf p v w /\ selected fmt w.
Proof.
  intros fmt. induction v as [v S|d IH] using val_ind2; intros D W p w; [congruence|]. clear D.
  rewrite extract_dict. apply wf_VDict in W. destruct W as [N W].
  destruct p as [|k p].
  { unfold leaf. cbn [lookup]. split; [intros [E F]|intros [[E F] _]]; injection E as E; subst w; discriminate F. }
  rewrite !leaf_cons, xgo_dget by exact N. destruct (dget k d) as [x|] eqn:G.
  2:{ split; [intros [y [E _]]|intros [[y [E _]] _]]; discriminate E. }
  pose proof (dget_In _ _ G) as I.
  destruct (is_dict x) eqn:DX.
  - pose proof (IH k x I DX (W k x I) p w) as H. destruct x as [| | | | |dx]; try discriminate DX.
    unfold xval. cbv zeta.
    destruct (negb (truthy (extract_params fmt (VDict dx))) && fmt) eqn:T.
    + split; [intros [y [E _]]; discriminate E|]. intros [[y [E L]] S]. injection E as E. subst y.
      exfalso. pose proof (proj2 H (conj L S)) as L'. apply andb_true_iff in T. destruct T as [T _].
      rewrite extract_dict in T, L'. destruct (xgo fmt dx) as [|kv r]; [|discriminate T].
      destruct p as [|j p]; [unfold leaf in L'; cbn in L'; destruct L' as [E F]; injection E as E; subst w; discriminate F|].
      apply leaf_cons in L'. destruct L' as [y [E _]]. discriminate E.
    + split.
      * intros [y [E L]]. injection E as E. subst y. apply H in L. destruct L as [L S]. split; [|exact S].
        eexists; split; [reflexivity|exact L].
      * intros [[y [E L]] S]. injection E as E. subst y. eexists; split; [reflexivity|]. apply H. split; [exact L|exact S].
  - destruct (selected_scalar fmt x DX) as [[S X]|[S X]]; rewrite X.
    + split.
      * intros [y [E L]]. injection E as E. subst y. split; [exists x; split; [reflexivity|exact L]|].
        apply (leaf_scalar _ _ _ DX) in L. destruct L as [_ E]. subst w. exact S.
      * intros [L _]. exact L.
    + split; [intros [y [E _]]; discriminate E|]. intros [[y [E L]] S']. injection E as E. subst y. exfalso.
      apply (leaf_scalar _ _ _ DX) in L. destruct L as [_ E]. subst w. contradiction.
Qed.

Lemma extract_wf : forall fmt v, wf v -> wf (extract_params fmt v).
Proof.
  intros fmt. induction v as [v S|d IH] using val_ind2; intros W.
  - destruct v; try exact W. discriminate S.
  - rewrite extract_dict. apply wf_VDict in W. destruct W as [N W]. apply wf_VDict. split; [apply xgo_NoDup; exact N|].
    intros k v I. apply dget_NoDup in I; [|apply xgo_NoDup; exact N]. rewrite xgo_dget in I by exact N.
    destruct (dget k d) as [x|] eqn:G; [|discriminate I]. apply dget_In in G.
    unfold xval in I. destruct x; try (destruct fmt; [discriminate I|injection I as I; subst v; exact (W _ _ G)]).
    + destruct (Bool.eqb (has_brace s) fmt); [injection I as I; subst v; exact (W _ _ G)|discriminate I].
    + cbv zeta in I. destruct (negb (truthy (extract_params fmt (VDict d0))) && fmt); [discriminate I|].
      injection I as I. subst v. exact (IH k (VDict d0) G (W _ _ G)).
Qed.

(* Every parameter of a layer is either a format string and goes into the node data, or it is
   something else and goes into the group: never both, never none. *)
Theorem fabric_params_split : forall d p v, wf (VDict d) ->
  (leaf p (extract_params true (VDict d)) v <-> leaf p (VDict d) v /\ exists s, v = VStr s /\ template s) /\
  (leaf p (extract_params false (VDict d)) v <-> leaf p (VDict d) v /\ forall s, v = VStr s -> ~ template s).
Proof.
  intros d p v W. split.
  - exact (extract_leaves true (VDict d) eq_refl W p v).
  - exact (extract_leaves false (VDict d) eq_refl W p v).
Qed.

Section Fabric.
Variable ev : string -> dict val -> string.
Variable as_int : string -> option Z.

Definition fgo (node : dict val) : list (string * val) -> list (string * val) :=
  fix go (d : list (string * val)) : list (string * val) :=
  match d with
  | [] => []
  | (k, x) :: r =>
      (k, match x with
          | VDict _ => format_node_params ev as_int node x
          | VStr s => format_value ev as_int node s
          | _ => x
          end) :: go r
  end.

Lemma format_dict : forall node d, format_node_params ev as_int node (VDict d) = VDict (fgo node d).
Proof. intros node d. reflexivity. Qed.

Definition fval (node : dict val) (x : val) : val :=
  match x with
  | VDict _ => format_node_params ev as_int node x
  | VStr s => format_value ev as_int node s
  | _ => x
  end.

Lemma fgo_dget : forall node d k, dget k (fgo node d) = option_map (fval node) (dget k d).
Proof.
  intros node. induction d as [|[j x] r IH]; intros k; [reflexivity|]. cbn [fgo dget].
  destruct (String.eqb k j); [reflexivity|apply IH].
Qed.

Lemma fgo_keys : forall node d, dkeys (fgo node d) = dkeys d.
Proof. intros node. induction d as [|[j x] r IH]; [reflexivity|]. cbn [fgo dkeys map fst]. f_equal. exact IH. Qed.

Lemma format_value_scalar : forall node s, is_dict (format_value ev as_int node s) = false.
Proof. intros node s. unfold format_value. destruct (as_int _); reflexivity. Qed.

Lemma fval_scalar : forall node x, is_dict x = false -> is_dict (fval node x) = false.
Proof. intros node x S. destruct x; try reflexivity; [apply format_value_scalar|discriminate S]. Qed.

Lemma format_leaves : forall node v, is_dict v = true -> forall p w,
  leaf p (format_node_params ev as_int node v) w <-> exists u, leaf p v u /\ w = fval node u.
Proof.
  intros node. induction v as [v S|d IH] using val_ind2; intros D p w; [congruence|]. clear D.
  rewrite format_dict. destruct p as [|k p].
  { unfold leaf. cbn [lookup]. split; [intros [E F]; injection E as E; subst w; discriminate F|].
    intros [u [[E F] _]]. injection E as E. subst u. discriminate F. }
  rewrite leaf_cons, fgo_dget. destruct (dget k d) as [x|] eqn:G; cbn [option_map].
  2:{ split; [intros [y [E _]]; discriminate E|]. intros [u [L _]]. apply leaf_cons in L. destruct L as [y [E _]]. congruence. }
  pose proof (dget_In _ _ G) as I.
  assert (Q : (exists u, leaf (k :: p) (VDict d) u /\ w = fval node u) <-> exists u, leaf p x u /\ w = fval node u).
  { split; intros [u [L E]]; exists u; (split; [|exact E]).
    - apply leaf_cons in L. destruct L as [y [E' L]]. rewrite G in E'. injection E' as E'. subst y. exact L.
    - apply leaf_cons. exists x. split; [exact G|exact L]. }
  rewrite Q. clear Q. destruct (is_dict x) eqn:DX.
  - rewrite <- (IH k x I DX p w). destruct x; try discriminate DX. cbn [fval]. split.
    + intros [y [E L]]. injection E as E. subst y. exact L.
    + intros L. eexists; split; [reflexivity|exact L].
  - pose proof (fval_scalar node x DX) as FX. split.
    + intros [y [E L]]. injection E as E. subst y. apply (leaf_scalar _ _ _ FX) in L. destruct L as [E1 E2].
      exists x. split; [|exact E2]. apply (leaf_scalar _ _ _ DX). split; [exact E1|reflexivity].
    + intros [u [L E]]. apply (leaf_scalar _ _ _ DX) in L. destruct L as [E1 E2]. subst u.
      eexists; split; [reflexivity|]. apply (leaf_scalar _ _ _ FX). split; [exact E1|exact E].
Qed.

Lemma format_wf : forall node v, wf v -> wf (format_node_params ev as_int node v).
Proof.
  intros node. induction v as [v S|d IH] using val_ind2; intros W.
  - destruct v; try exact W. discriminate S.
  - rewrite format_dict. apply wf_VDict in W. destruct W as [N W]. apply wf_VDict. split; [rewrite fgo_keys; exact N|].
    intros k v I. apply dget_NoDup in I; [|rewrite fgo_keys; exact N]. rewrite fgo_dget in I.
    destruct (dget k d) as [x|] eqn:G; [|discriminate I]. cbn [option_map] in I. injection I as I. subst v. apply dget_In in G.
    destruct x; cbn [fval]; try exact (W _ _ G).
    + unfold format_value. destruct (as_int _); exact Logic.I.
    + exact (IH k (VDict d0) G (W _ _ G)).
Qed.

(* ---------- nodes ---------- *)

(* the name of the i-th node of a layer *)
Definition name_at (tpl : string) (i : nat) : string := ev tpl [("count", VInt (Z.of_nat i))].
Definition names (tpl : string) (n : nat) : list string := map (name_at tpl) (seq 1 n).

(* a parameter of a layer: anything but the name template and the group name *)
Definition layer_param (params : dict val) (p : list string) (v : val) : Prop :=
  exists k q, p = k :: q /\ k <> "name" /\ k <> "group" /\ leaf p (VDict params) v.

(* the value of a format string for the i-th node *)
Definition param_value (tpl : string) (i : nat) (s : string) : val :=
  let r := ev s [("name", VStr (name_at tpl i)); ("interfaces", VList []); ("_fabric_count", VInt (Z.of_nat i));
                 ("count", VInt (Z.of_nat i))] in
  match as_int r with Some z => VInt z | None => VStr r end.

Definition own_data (tpl : string) (i : nat) : list (string * val) :=
  [("name", VStr (name_at tpl i)); ("interfaces", VList []); ("_fabric_count", VInt (Z.of_nat i))].

Definition fabric_node (tpl : string) (params : dict val) (i : nat) (node : dict val) : Prop :=
  dget "name" node = Some (VStr (name_at tpl i)) /\
  (forall p s, layer_param params p (VStr s) -> template s -> leaf p (VDict node) (param_value tpl i s)) /\
  (forall k v, In (k, v) (own_data tpl i) -> ~ In k (dkeys params) -> dget k node = Some v) /\
  (forall p v, leaf p (VDict node) v -> (exists k, p = [k] /\ In (k, v) (own_data tpl i)) \/
     exists s, layer_param params p (VStr s) /\ template s /\ v = param_value tpl i s).

Definition own_params (params : dict val) : dict val := dpop "group" (dpop "name" params).

Lemma own_dget : forall params k, dget k (own_params params) =
  if String.eqb k "name" || String.eqb k "group" then None else dget k params.
Proof.
  intros params k. unfold own_params. destruct (String.eqb_spec k "group") as [E|E].
  - subst k. rewrite dget_dpop_same. reflexivity.
  - rewrite dget_dpop_other by congruence. destruct (String.eqb_spec k "name") as [Q|Q].
    + subst k. rewrite dget_dpop_same. reflexivity.
    + rewrite dget_dpop_other by congruence. reflexivity.
Qed.

Lemma own_leaf : forall params p v, leaf p (VDict (own_params params)) v <-> layer_param params p v.
Proof.
  intros params p v. unfold layer_param. destruct p as [|k q].
  - split; [intros [E F]; cbn in E; injection E as E; subst v; discriminate F|]. intros [k [q [E _]]]. discriminate E.
  - rewrite leaf_cons, own_dget. split.
    + intros [x [E L]]. exists k, q. destruct (String.eqb_spec k "name") as [Q|Q]; [discriminate E|].
      destruct (String.eqb_spec k "group") as [R|R]; [discriminate E|]. cbn [orb] in E.
      split; [reflexivity|]. split; [exact Q|]. split; [exact R|]. apply leaf_cons. exists x. split; [exact E|exact L].
    + intros [k' [q' [E [N [G L]]]]]. injection E as E1 E2. subst k' q'. apply leaf_cons in L. destruct L as [x [E L]].
      exists x. split; [|exact L]. destruct (String.eqb_spec k "name"); [contradiction|].
      destruct (String.eqb_spec k "group"); [contradiction|]. exact E.
Qed.

Lemma NoDup_dpop : forall k (d : dict val), NoDup (dkeys d) -> NoDup (dkeys (dpop k d)).
Proof.
  intros k. induction d as [|[j x] r IH]; intros N; [exact N|]. inversion N as [|? ? N1 N2]; subst. cbn [dpop].
  assert (S : forall y, In y (dkeys (dpop k r)) -> In y (dkeys r)).
  { clear. induction r as [|[j x] r IH]; intros y I; [exact I|]. cbn [dpop] in I. destruct (String.eqb k j).
    - right. apply IH; exact I.
    - destruct I as [I|I]; [left; exact I|right; apply IH; exact I]. }
  destruct (String.eqb k j); [apply IH; exact N2|]. constructor; [intros I; apply N1, S, I|apply IH; exact N2].
Qed.

Lemma In_dpop : forall k (d : dict val) kv, In kv (dpop k d) -> In kv d.
Proof.
  intros k. induction d as [|[j x] r IH]; intros kv I; [exact I|]. cbn [dpop] in I. destruct (String.eqb k j).
  - right. apply IH; exact I.
  - destruct I as [I|I]; [left; exact I|right; apply IH; exact I].
Qed.

Lemma own_wf : forall params, wf (VDict params) -> wf (VDict (own_params params)).
Proof.
  intros params W. apply wf_VDict in W. destruct W as [N W]. apply wf_VDict. split.
  - apply NoDup_dpop, NoDup_dpop, N.
  - intros k v I. apply In_dpop, In_dpop in I. exact (W k v I).
Qed.

Definition with_params (params : dict val) (n : dict val) : dict val :=
  as_dict (merge (VDict n) (format_node_params ev as_int n (extract_params true (VDict (own_params params))))).

Lemma adjust_nodes : forall g groups nodes params,
  snd (adjust_group_parameters ev as_int g groups nodes params) = map (with_params params) nodes.
Proof.
  intros g groups nodes params. unfold adjust_group_parameters, with_params. fold (own_params params).
  assert (ID : forall n, as_dict (merge (VDict n) (VDict [])) = n) by (intros n; reflexivity).
  destruct (own_params params) as [|kv r] eqn:E.
  - cbn [snd]. symmetry. rewrite <- (map_id nodes) at 2. apply map_ext. intros n. exact (ID n).
  - cbn [snd]. rewrite extract_dict. destruct (xgo true (kv :: r)) as [|kv' r'].
    + cbn [truthy]. symmetry. rewrite <- (map_id nodes) at 2. apply map_ext. intros n. exact (ID n).
    + cbn [truthy negb]. reflexivity.
Qed.

Lemma created_node : forall tpl i, create_node ev tpl i = own_data tpl i.
Proof. reflexivity. Qed.

Lemma format_own : forall tpl i s, format_value ev as_int (own_data tpl i) s = param_value tpl i s.
Proof. reflexivity. Qed.

Lemma with_params_spec : forall tpl params i, wf (VDict params) ->
  fabric_node tpl params i (with_params params (create_node ev tpl i)).
Proof.
  intros tpl params i W. rewrite created_node. unfold with_params.
  set (np := format_node_params ev as_int (own_data tpl i) (extract_params true (VDict (own_params params)))).
  assert (WN : wf np) by (apply format_wf, extract_wf, own_wf, W).
  assert (NL : forall p v, leaf p np v <-> exists s, layer_param params p (VStr s) /\ template s /\ v = param_value tpl i s).
  { intros p v. unfold np. rewrite format_leaves by (rewrite extract_dict; reflexivity). split.
    - intros [u [L E]]. apply (extract_leaves true (VDict (own_params params)) eq_refl (own_wf _ W)) in L. destruct L as [L [s [ES T]]]. subst u.
      exists s. split; [apply own_leaf; exact L|]. split; [exact T|]. rewrite E. cbn [fval]. apply format_own.
    - intros [s [L [T E]]]. exists (VStr s). split; [|rewrite E; cbn [fval]; rewrite format_own; reflexivity].
      apply (extract_leaves true (VDict (own_params params)) eq_refl (own_wf _ W)). split; [apply own_leaf; exact L|]. exists s. split; [reflexivity|exact T]. }
  assert (NK : exists d, np = VDict d /\ NoDup (dkeys d) /\ forall k, dget k (own_params params) = None -> dget k d = None).
  { unfold np. rewrite extract_dict, format_dict. eexists. split; [reflexivity|].
    apply own_wf in W. apply wf_VDict in W. destruct W as [N _]. split; [rewrite fgo_keys; apply xgo_NoDup; exact N|].
    intros k G. rewrite fgo_dget, xgo_dget by exact N. rewrite G. reflexivity. }
  assert (ML : forall p v, leaf p (merge (VDict (own_data tpl i)) np) v <->
     leaf p np v \/ (leaf p (VDict (own_data tpl i)) v /\ ~ overridden p np)).
  { intros p v. apply merge_leaves. exact WN. }
  destruct NK as [d [EN [ND NK]]]. clearbody np. subst np. rewrite merge_dicts in ML |- *. cbn [as_dict].
  assert (KEEP : forall k, dget k (own_params params) = None -> dget k (mdict (own_data tpl i) d) = dget k (own_data tpl i)).
  { intros k G. rewrite dget_mdict by exact ND. rewrite (NK k G). destruct (dget k (own_data tpl i)); reflexivity. }
  split.
  { rewrite KEEP by (rewrite own_dget; reflexivity). reflexivity. }
  split.
  { intros p s L T. apply ML. left. apply NL. exists s. split; [exact L|]. split; [exact T|reflexivity]. }
  split.
  { intros k v I NI. rewrite KEEP.
    - apply dget_NoDup; [|exact I]. cbn. constructor; [intros [Q|[Q|[]]]; discriminate Q|].
      constructor; [intros [Q|[]]; discriminate Q|]. constructor; [intros []|constructor].
    - rewrite own_dget. apply dget_None in NI. rewrite NI. destruct (_ || _); reflexivity. }
  intros p v L. apply ML in L. destruct L as [L|[L _]].
  - right. apply NL. exact L.
  - left. destruct p as [|k q]; [destruct L as [E F]; cbn in E; injection E as E; subst v; discriminate F|].
    apply leaf_cons in L. destruct L as [x [E L]]. apply dget_In in E.
    assert (SX : is_dict x = false) by (destruct E as [E|[E|[E|[]]]]; injection E as _ E; subst x; reflexivity).
    apply (leaf_scalar _ _ _ SX) in L. destruct L as [EQ EV]. subst q v. exists k. split; [reflexivity|exact E].
Qed.

Lemma node_name_with : forall tpl params i, wf (VDict params) ->
  node_name (with_params params (create_node ev tpl i)) = name_at tpl i.
Proof. intros tpl params i W. destruct (with_params_spec tpl params i W) as [N _]. unfold node_name. rewrite N. reflexivity. Qed.

Lemma dset_new : forall A k (v : A) d, ~ In k (dkeys d) -> dset k v d = d ++ [(k, v)].
Proof.
  intros A k v. induction d as [|[j x] r IH]; intros N; [reflexivity|]. cbn [dset app].
  destruct (String.eqb_spec k j) as [E|E]; [exfalso; apply N; left; cbn [fst]; symmetry; exact E|]. f_equal. apply IH. intros I. apply N. right. exact I.
Qed.

Lemma node_dict_distinct : forall l, NoDup (map node_name l) -> node_dict l = map (fun n => (node_name n, VDict n)) l.
Proof.
  intros l. unfold node_dict. assert (G : forall acc, NoDup (dkeys acc ++ map node_name l) ->
    fold_left (fun d n => dset (node_name n) (VDict n) d) l acc = acc ++ map (fun n => (node_name n, VDict n)) l).
  { induction l as [|n r IH]; intros acc N; cbn [fold_left map]; [rewrite app_nil_r; reflexivity|].
    cbn [map] in N. assert (NI : ~ In (node_name n) (dkeys acc)).
    { apply NoDup_remove_2 in N. intros I. apply N. apply in_or_app. left. exact I. }
    rewrite dset_new by exact NI. rewrite IH.
    - rewrite <- app_assoc. reflexivity.
    - unfold dkeys. rewrite map_app. cbn [map fst]. rewrite <- app_assoc. exact N. }
  intros N. rewrite G; [reflexivity|exact N].
Qed.

Definition fabric_node_dict (f : fabric) : dict val :=
  node_dict (map (with_params (f_leaf f)) (layer_nodes ev (f_lname f) (f_leafs f)) ++
             map (with_params (f_spine f)) (layer_nodes ev (f_sname f) (f_spines f))).

Lemma generated : forall f, exists g,
  generate_fabric ev as_int f =
    (g, fabric_node_dict f,
     fst (adjust_link_list (VList (fabric_links (layer_nodes ev (f_lname f) (f_leafs f)) (layer_nodes ev (f_sname f) (f_spines f))))
            "fabric" (dkeys (fabric_node_dict f))),
     snd (adjust_link_list (VList (fabric_links (layer_nodes ev (f_lname f) (f_leafs f)) (layer_nodes ev (f_sname f) (f_spines f))))
            "fabric" (dkeys (fabric_node_dict f)))) /\
  g = fst (adjust_group_parameters ev as_int (f_sgroup f)
        (add_group (fst (adjust_group_parameters ev as_int (f_lgroup f)
                           (add_group [] (f_lgroup f) (layer_nodes ev (f_lname f) (f_leafs f)))
                           (layer_nodes ev (f_lname f) (f_leafs f)) (f_leaf f)))
           (f_sgroup f) (layer_nodes ev (f_sname f) (f_spines f)))
        (layer_nodes ev (f_sname f) (f_spines f)) (f_spine f)).
Proof.
  intros f. unfold generate_fabric, fabric_node_dict.
  pose proof (adjust_nodes (f_lgroup f) (add_group [] (f_lgroup f) (layer_nodes ev (f_lname f) (f_leafs f)))
                (layer_nodes ev (f_lname f) (f_leafs f)) (f_leaf f)) as A.
  destruct (adjust_group_parameters ev as_int (f_lgroup f) _ (layer_nodes ev (f_lname f) (f_leafs f)) (f_leaf f)) as [g2 l2].
  cbn [fst snd] in A |- *. subst l2.
  pose proof (adjust_nodes (f_sgroup f) (add_group g2 (f_sgroup f) (layer_nodes ev (f_sname f) (f_spines f)))
                (layer_nodes ev (f_sname f) (f_spines f)) (f_spine f)) as A.
  destruct (adjust_group_parameters ev as_int (f_sgroup f) _ (layer_nodes ev (f_sname f) (f_spines f)) (f_spine f)) as [g4 s2].
  cbn [fst snd] in A |- *. subst s2.
  destruct (adjust_link_list _ "fabric" _) as [lk errs]. exists g4. split; reflexivity.
Qed.

Lemma layer_names : forall tpl params n, wf (VDict params) ->
  map node_name (map (with_params params) (layer_nodes ev tpl n)) = names tpl n.
Proof.
  intros tpl params n W. unfold layer_nodes, names. rewrite !map_map. apply map_ext. intros i. apply node_name_with; exact W.
Qed.

Lemma fabric_node_keys : forall f, wf (VDict (f_leaf f)) -> wf (VDict (f_spine f)) ->
  NoDup (names (f_lname f) (f_leafs f) ++ names (f_sname f) (f_spines f)) ->
  dkeys (fabric_node_dict f) = names (f_lname f) (f_leafs f) ++ names (f_sname f) (f_spines f).
Proof.
  intros f WL WS N. unfold fabric_node_dict. rewrite node_dict_distinct.
  - unfold dkeys. rewrite map_map. cbn [fst]. rewrite map_app, !layer_names by assumption. reflexivity.
  - rewrite map_app, !layer_names by assumption. exact N.
Qed.

(* The nodes of a fabric: the requested numbers of leafs and spines, each with its own values of the
   format strings and nothing else. *)
Theorem fabric_nodes_exact : forall f, wf (VDict (f_leaf f)) -> wf (VDict (f_spine f)) ->
  NoDup (names (f_lname f) (f_leafs f) ++ names (f_sname f) (f_spines f)) ->
  let '(_, nodes, _, _) := generate_fabric ev as_int f in
  dkeys nodes = names (f_lname f) (f_leafs f) ++ names (f_sname f) (f_spines f) /\
  (forall i, 1 <= i <= f_leafs f -> exists n, dget (name_at (f_lname f) i) nodes = Some (VDict n) /\
     fabric_node (f_lname f) (f_leaf f) i n) /\
  (forall i, 1 <= i <= f_spines f -> exists n, dget (name_at (f_sname f) i) nodes = Some (VDict n) /\
     fabric_node (f_sname f) (f_spine f) i n).
Proof.
  intros f WL WS N. destruct (generated f) as [g [E _]]. rewrite E. clear E g.
  pose proof (fabric_node_keys f WL WS N) as K. split; [exact K|].
  assert (ND : NoDup (dkeys (fabric_node_dict f))) by (rewrite K; exact N).
  assert (D : fabric_node_dict f = map (fun n => (node_name n, VDict n))
     (map (with_params (f_leaf f)) (layer_nodes ev (f_lname f) (f_leafs f)) ++
      map (with_params (f_spine f)) (layer_nodes ev (f_sname f) (f_spines f)))).
  { apply node_dict_distinct. rewrite map_app, !layer_names by assumption. exact N. }
  split; intros i I.
  - exists (with_params (f_leaf f) (create_node ev (f_lname f) i)). split; [|apply with_params_spec; exact WL].
    apply dget_NoDup; [exact ND|]. rewrite D. apply in_map_iff. exists (with_params (f_leaf f) (create_node ev (f_lname f) i)). rewrite (node_name_with (f_lname f) (f_leaf f) i WL). split; [reflexivity|].
    apply in_or_app. left. apply in_map. apply in_map. apply in_seq. lia.
  - exists (with_params (f_spine f) (create_node ev (f_sname f) i)). split; [|apply with_params_spec; exact WS].
    apply dget_NoDup; [exact ND|]. rewrite D. apply in_map_iff. exists (with_params (f_spine f) (create_node ev (f_sname f) i)). rewrite (node_name_with (f_sname f) (f_spine f) i WS). split; [reflexivity|].
    apply in_or_app. right. apply in_map. apply in_map. apply in_seq. lia.
Qed.

(* ---------- links ---------- *)

Definition fabric_link (i : nat) (a b : string) (d : link) : Prop :=
  dget "interfaces" d = Some (VList [VDict [("node", VStr a)]; VDict [("node", VStr b)]]) /\
  dget "_linkname" d = Some (VStr ("fabric[" ++ dec (S i) ++ "]")) /\
  forall k, k <> "interfaces" -> k <> "_linkname" -> dget k d = None.

Definition pair_link (ab : string * string) : val := VDict [(fst ab, VDict []); (snd ab, VDict [])].

Lemma fabric_links_pairs : forall tl nl ts ns, (forall x, In x (names tl nl) -> ~ In x (names ts ns)) ->
  fabric_links (layer_nodes ev tl nl) (layer_nodes ev ts ns) = map pair_link (list_prod (names tl nl) (names ts ns)).
Proof.
  intros tl nl ts ns. unfold names, fabric_links, layer_nodes. generalize (seq 1 nl) as A. generalize (seq 1 ns) as B.
  intros B. induction A as [|a A IH]; intros D; cbn [map flat_map list_prod]; [reflexivity|].
  rewrite map_app, IH by (intros x X; apply D; right; exact X). f_equal.
  rewrite !map_map. apply map_ext_in. intros b I. unfold pair_link. cbn [fst snd].
  change (node_name (create_node ev tl a)) with (name_at tl a). change (node_name (create_node ev ts b)) with (name_at ts b).
  cbn [dset]. destruct (String.eqb_spec (name_at ts b) (name_at tl a)) as [E|E]; [|reflexivity].
  exfalso. apply (D (name_at tl a)); [left; reflexivity|]. rewrite <- E. apply in_map. exact I.
Qed.

Lemma pair_adjusted : forall nodes ln a b, In a nodes -> In b nodes -> a <> "interfaces" -> b <> "interfaces" ->
  adjust_link_object (pair_link (a, b)) ln nodes =
  (Some [("_linkname", VStr ln); ("interfaces", VList [VDict [("node", VStr a)]; VDict [("node", VStr b)]])], []).
Proof.
  intros nodes ln a b IA IB NA NB. unfold adjust_link_object, pair_link. cbn [fst snd dget].
  destruct (String.eqb_spec "interfaces" a) as [E|_]; [congruence|].
  destruct (String.eqb_spec "interfaces" b) as [E|_]; [congruence|].
  apply memS_true in IA. apply memS_true in IB. cbn [split_link_dict]. rewrite IA, IB. reflexivity.
Qed.

Lemma pairs_adjusted : forall nodes l cnt, (forall a b, In (a, b) l -> In a nodes /\ In b nodes /\ a <> "interfaces" /\ b <> "interfaces") ->
  snd (adjust_links "fabric" nodes cnt (map pair_link l)) = [] /\
  length (fst (adjust_links "fabric" nodes cnt (map pair_link l))) = length l /\
  forall i a b, nth_error l i = Some (a, b) ->
    exists d, nth_error (fst (adjust_links "fabric" nodes cnt (map pair_link l))) i = Some d /\ fabric_link (cnt + i) a b d.
Proof.
  intros nodes. induction l as [|[a b] r IH]; intros cnt H.
  { cbn. split; [reflexivity|]. split; [reflexivity|]. intros i a b E. destruct i; discriminate E. }
  destruct (H a b (or_introl eq_refl)) as [IA [IB [NA NB]]].
  destruct (IH (S cnt)) as [E1 [E2 E3]]; [intros x y X; apply H; right; exact X|].
  cbn [map adjust_links]. rewrite (pair_adjusted nodes _ a b IA IB NA NB).
  destruct (adjust_links "fabric" nodes (S cnt) (map pair_link r)) as [ls e2]. cbn [fst snd] in E1, E2, E3. subst e2.
  unfold is_disabled. cbn [dget]. change (String.eqb "disable" "_linkname") with false. change (String.eqb "disable" "interfaces") with false.
  cbn [fst snd app]. split; [reflexivity|]. split; [cbn [length]; f_equal; exact E2|].
  intros i x y E. destruct i as [|i]; cbn [nth_error] in E |- *.
  - injection E as EA EB. subst x y. eexists. split; [reflexivity|]. rewrite Nat.add_0_r. split; [reflexivity|].
    split; [reflexivity|]. intros k K1 K2. cbn [dget]. apply String.eqb_neq in K1. apply String.eqb_neq in K2. rewrite K1, K2. reflexivity.
  - destruct (E3 i x y E) as [d [D1 D2]]. exists d. split; [exact D1|]. replace (cnt + S i) with (S cnt + i) by lia. exact D2.
Qed.

(* The links of a fabric: every leaf is connected to every spine with exactly one link, and there are
   no other links and no errors. *)
Theorem fabric_full_mesh : forall f, wf (VDict (f_leaf f)) -> wf (VDict (f_spine f)) ->
  let L := names (f_lname f) (f_leafs f) in
  let S := names (f_sname f) (f_spines f) in
  NoDup (L ++ S) -> ~ In "interfaces" (L ++ S) ->
  let '(_, _, lk, errs) := generate_fabric ev as_int f in
  errs = [] /\ length lk = f_leafs f * f_spines f /\ NoDup (list_prod L S) /\
  forall i a b, nth_error (list_prod L S) i = Some (a, b) -> exists d, nth_error lk i = Some d /\ fabric_link i a b d.
Proof.
  intros f WL WS L S N NI. destruct (generated f) as [g [E _]]. rewrite E. clear E g.
  rewrite (fabric_node_keys f WL WS N). fold L S.
  destruct (NoDup_app_elim _ _ N) as [NL [NS DJ]].
  rewrite fabric_links_pairs by exact DJ. fold L S.
  assert (H : forall a b, In (a, b) (list_prod L S) -> In a (L ++ S) /\ In b (L ++ S) /\ a <> "interfaces" /\ b <> "interfaces").
  { intros a b I. apply in_prod_iff in I. destruct I as [IA IB].
    assert (JA : In a (L ++ S)) by (apply in_or_app; left; exact IA). assert (JB : In b (L ++ S)) by (apply in_or_app; right; exact IB).
    split; [exact JA|]. split; [exact JB|]. split; intros Q; subst; contradiction. }
  assert (LEN : length (list_prod L S) = f_leafs f * f_spines f).
  { rewrite prod_length. unfold L, S, names. rewrite !map_length, !seq_length. reflexivity. }
  assert (ND : NoDup (list_prod L S)).
  { clear -NL NS. induction L as [|a r IH]; cbn [list_prod]; [constructor|]. inversion NL as [|? ? N1 N2]; subst.
    apply NoDup_app_intro.
    - apply FinFun.Injective_map_NoDup; [|exact NS]. intros x y Q. congruence.
    - apply IH; exact N2.
    - intros [x y] I J. apply in_map_iff in I. destruct I as [z [Q _]]. injection Q as Q1 Q2. subst x.
      apply in_prod_iff in J. exact (N1 (proj1 J)). }
  destruct (pairs_adjusted (L ++ S) (list_prod L S) 0 H) as [E1 [E2 E3]].
  assert (A : adjust_link_list (VList (map pair_link (list_prod L S))) "fabric" (L ++ S) =
              adjust_links "fabric" (L ++ S) 0 (map pair_link (list_prod L S))).
  { destruct (list_prod L S); reflexivity. }
  rewrite A. split; [exact E1|]. split; [rewrite E2; exact LEN|]. split; [exact ND|exact E3].
Qed.

(* ---------- groups ---------- *)

Definition group_value (l : list string) (params : dict val) : val :=
  merge (VDict [("members", VList (map VStr l))]) (extract_params false (VDict (own_params params))).

Lemma adjusted_group : forall g (pre : dict val) old nodes params, ~ In g (dkeys pre) ->
  fst (adjust_group_parameters ev as_int g (pre ++ [(g, VDict old)]) nodes params) =
  pre ++ [(g, merge (VDict old) (extract_params false (VDict (own_params params))))].
Proof.
  intros g pre old nodes params N. unfold adjust_group_parameters. fold (own_params params).
  assert (G : dget g (pre ++ [(g, VDict old)]) = Some (VDict old)).
  { clear -N. induction pre as [|[k x] r IH]; cbn [app dget]; [rewrite String.eqb_refl; reflexivity|].
    destruct (String.eqb_spec g k) as [E|E]; [exfalso; apply N; left; cbn [fst]; symmetry; exact E|].
    apply IH. intros I. apply N. right. exact I. }
  assert (D : forall v, dset g v (pre ++ [(g, VDict old)]) = pre ++ [(g, v)]).
  { intros v. clear -N. induction pre as [|[k x] r IH]; cbn [app dset]; [rewrite String.eqb_refl; reflexivity|].
    destruct (String.eqb_spec g k) as [E|E]; [exfalso; apply N; left; cbn [fst]; symmetry; exact E|].
    f_equal. apply IH. intros I. apply N. right. exact I. }
  destruct (own_params params) as [|kv r]; [reflexivity|]. cbn [fst]. rewrite G, extract_dict.
  destruct (xgo false (kv :: r)) as [|kv' r']; [reflexivity|]. cbn [truthy negb]. apply D.
Qed.

Lemma layer_members : forall tpl n, map (fun x => VStr (node_name x)) (layer_nodes ev tpl n) = map VStr (names tpl n).
Proof. intros tpl n. unfold layer_nodes, names. rewrite !map_map. reflexivity. Qed.

Lemma generated_groups : forall f, f_lgroup f <> f_sgroup f ->
  fst (fst (fst (generate_fabric ev as_int f))) =
  [(f_lgroup f, group_value (names (f_lname f) (f_leafs f)) (f_leaf f));
   (f_sgroup f, group_value (names (f_sname f) (f_spines f)) (f_spine f))].
Proof.
  intros f NE. destruct (generated f) as [g [E G]]. rewrite E. cbn [fst]. subst g. clear E.
  assert (A1 : add_group [] (f_lgroup f) (layer_nodes ev (f_lname f) (f_leafs f)) =
    [] ++ [(f_lgroup f, VDict [("members", VList (map VStr (names (f_lname f) (f_leafs f))))])]).
  { unfold add_group. cbn [dget dset app]. rewrite layer_members. reflexivity. }
  rewrite A1, adjusted_group by (intros []). cbn [app]. fold (group_value (names (f_lname f) (f_leafs f)) (f_leaf f)).
  assert (A2 : forall x, add_group [(f_lgroup f, x)] (f_sgroup f) (layer_nodes ev (f_sname f) (f_spines f)) =
    [(f_lgroup f, x)] ++ [(f_sgroup f, VDict [("members", VList (map VStr (names (f_sname f) (f_spines f))))])]).
  { intros x. unfold add_group. cbn [dget dset app].
    destruct (String.eqb_spec (f_sgroup f) (f_lgroup f)) as [Q|Q]; [congruence|]. rewrite layer_members. reflexivity. }
  rewrite A2, adjusted_group; [reflexivity|]. intros [Q|[]]. cbn [fst] in Q. contradiction.
Qed.

Lemma members_strings : forall m, flat_map (fun x => match x with VStr s => [s] | _ => [] end) (map VStr m) = m.
Proof. induction m as [|x r IH]; [reflexivity|]. cbn [map flat_map app]. f_equal. exact IH. Qed.

Lemma group_value_spec : forall l params, wf (VDict params) -> ~ In "members" (dkeys params) ->
  exists d, group_value l params = VDict d /\ wf (VDict d) /\ dget "members" d = Some (VList (map VStr l)) /\
    forall k p v, k <> "members" ->
      (leaf (k :: p) (VDict d) v <-> layer_param params (k :: p) v /\ forall s, v = VStr s -> ~ template s).
Proof.
  intros l params W N. pose proof (own_wf _ W) as WO.
  pose proof (extract_wf false _ WO) as WE.
  assert (WG : wf (group_value l params)).
  { apply merge_wf; [|exact WE]. apply wf_VDict. split; [constructor; [intros []|constructor]|].
    intros k v [E|[]]. injection E as E1 E2. subst. exact I. }
  unfold group_value in *.
  assert (ML : forall p v, leaf p (merge (VDict [("members", VList (map VStr l))]) (extract_params false (VDict (own_params params)))) v <->
     leaf p (extract_params false (VDict (own_params params))) v \/
     (leaf p (VDict [("members", VList (map VStr l))]) v /\ ~ overridden p (extract_params false (VDict (own_params params))))).
  { intros p v. apply merge_leaves. exact WE. }
  assert (XL : forall p v, leaf p (extract_params false (VDict (own_params params))) v <->
    layer_param params p v /\ forall s, v = VStr s -> ~ template s).
  { intros p v. rewrite (extract_leaves false (VDict (own_params params)) eq_refl WO p v), own_leaf. reflexivity. }
  rewrite extract_dict in *. rewrite merge_dicts in *. eexists. split; [reflexivity|]. split; [exact WG|]. split.
  - apply wf_VDict in WE. destruct WE as [NE _]. apply wf_VDict in WO. destruct WO as [NO _].
    rewrite dget_mdict by exact NE. rewrite xgo_dget by exact NO. rewrite own_dget. cbn [String.eqb Ascii.eqb Bool.eqb orb].
    apply dget_None in N. rewrite N. reflexivity.
  - intros k p v K. rewrite ML, XL. split; [|intros H; left; exact H]. intros [H|[H _]]; [exact H|]. exfalso.
    apply leaf_cons in H. destruct H as [x [E _]]. cbn [dget] in E. apply String.eqb_neq in K. rewrite K in E. discriminate E.
Qed.

(* the data of a group in the lab topology: its attributes and its members *)
Definition user_group (groups : dict val) (g : string) (u : dict val) (m : list string) : Prop :=
  (dget g groups = None /\ u = [] /\ m = []) \/
  (dget g groups = Some (VDict u) /\
   (dget "members" u = None /\ m = [] \/ dget "members" u = Some (VList (map VStr m)))).

Definition fabric_group (l : list string) (params u : dict val) (m : list string) (v : val) : Prop :=
  exists d ms, v = VDict d /\ dget "members" d = Some (VList (map VStr ms)) /\ StronglySorted slt ms /\
    (forall x, In x ms <-> In x l \/ In x m) /\
    forall k p w, k <> "members" ->
      (leaf (k :: p) (VDict d) w <->
       leaf (k :: p) (VDict u) w \/
       (layer_param params (k :: p) w /\ (forall s, w = VStr s -> ~ template s) /\ ~ overridden (k :: p) (VDict u))).

Lemma merged_group : forall l params groups g u m, wf (VDict params) -> ~ In "members" (dkeys params) ->
  wf (VDict groups) -> user_group groups g u m ->
  exists x, mopt (Some (group_value l params)) (dget g groups) = Some x /\
    fabric_group l params u m (set_members x (sorted_set (group_members x ++ group_members (group_value l params)))).
Proof.
  intros l params groups g u m W N WG U.
  destruct (group_value_spec l params W N) as [d [EG [WD [DM DL]]]]. rewrite EG.
  assert (GM : group_members (VDict d) = l) by (unfold group_members; rewrite DM; apply members_strings).
  rewrite GM.
  assert (H : forall x, wf (VDict u) -> (forall p v, leaf p (VDict x) v <-> leaf p (VDict u) v \/ (leaf p (VDict d) v /\ ~ overridden p (VDict u))) ->
    (forall y, In y (group_members (VDict x) ++ l) <-> In y l \/ In y m) ->
    fabric_group l params u m (set_members (VDict x) (sorted_set (group_members (VDict x) ++ l)))).
  { intros x WU HL HM. unfold set_members. eexists _, _. split; [reflexivity|]. split; [apply dget_dset_same|].
    split; [apply sorted_set_slt|]. split; [intros y; rewrite sorted_set_In; apply HM|].
    intros k p w K. rewrite leaf_cons, dget_dset_other by congruence. rewrite <- leaf_cons, HL, (DL k p w K). tauto. }
  destruct U as [[GN [EU EM]]|[GS UM]].
  - subst u m. rewrite GN. cbn [mopt]. exists (VDict d). split; [reflexivity|]. apply H.
    + apply wf_VDict. split; [constructor|intros k v []].
    + intros p v. split.
      * intros L. right. split; [exact L|]. intros [[y E]|[q [r [y [E [F S]]]]]].
        -- destruct p as [|k p]; [destruct L as [E' F]; cbn in E'; injection E' as E'; subst v; discriminate F|discriminate E].
        -- destruct q as [|k q]; [cbn in F; injection F as F; subst y; discriminate S|discriminate F].
      * intros [[E F]|[L _]]; [|exact L]. destruct p; [cbn in E; injection E as E; subst v; discriminate F|discriminate E].
    + intros y. rewrite GM. rewrite in_app_iff. cbn [In]. tauto.
  - rewrite GS. cbn [mopt]. rewrite merge_dicts. eexists. split; [reflexivity|].
    assert (WU : wf (VDict u)) by (exact (wf_dget _ _ _ WG GS)).
    assert (NU : NoDup (dkeys u)) by (apply wf_VDict in WU; exact (proj1 WU)).
    apply H; [exact WU| |].
    + intros p v. rewrite <- merge_dicts. apply merge_leaves. exact WU.
    + intros y. unfold group_members. rewrite dget_mdict by exact NU. rewrite DM.
      destruct UM as [[UN EM]|UM].
      * subst m. rewrite UN. cbn [mopt]. rewrite members_strings, in_app_iff. cbn [In]. tauto.
      * rewrite UM. cbn [mopt]. rewrite merge_scalar_r by reflexivity. rewrite members_strings, in_app_iff. tauto.
Qed.

(* The groups of a fabric: the members are the nodes of the layer and the members given in the
   topology, in alphabetical order; the attributes are those of the topology, then the parameters of
   the layer that are not format strings. All other groups are unchanged. *)
Theorem fabric_groups_exact : forall f groups nodes links ul ml us ms,
  wf (VDict (f_leaf f)) -> wf (VDict (f_spine f)) -> wf (VDict groups) -> f_lgroup f <> f_sgroup f ->
  ~ In "members" (dkeys (f_leaf f)) -> ~ In "members" (dkeys (f_spine f)) ->
  user_group groups (f_lgroup f) ul ml -> user_group groups (f_sgroup f) us ms ->
  let '(g, _, _, _) := expand_fabric ev as_int f groups nodes links in
  (exists v, dget (f_lgroup f) g = Some v /\ fabric_group (names (f_lname f) (f_leafs f)) (f_leaf f) ul ml v) /\
  (exists v, dget (f_sgroup f) g = Some v /\ fabric_group (names (f_sname f) (f_spines f)) (f_spine f) us ms v) /\
  forall h, h <> f_lgroup f -> h <> f_sgroup f -> dget h g = dget h groups.
Proof.
  intros f groups nodes links ul ml us ms WL WS WG NE NL NS UL US. unfold expand_fabric.
  pose proof (generated_groups f NE) as GG. destruct (generate_fabric ev as_int f) as [[[grp fn] lk] errs].
  cbn [fst] in GG. subst grp.
  destruct (merged_group (names (f_lname f) (f_leafs f)) (f_leaf f) groups (f_lgroup f) ul ml WL NL WG UL) as [xl [EL FL]].
  destruct (merged_group (names (f_sname f) (f_spines f)) (f_spine f) groups (f_sgroup f) us ms WS NS WG US) as [xs [ES FS]].
  set (vl := group_value (names (f_lname f) (f_leafs f)) (f_leaf f)) in *. set (vs := group_value (names (f_sname f) (f_spines f)) (f_spine f)) in *.
  clearbody vl vs. rewrite merge_dicts. cbn [as_dict dkeys map fst fold_left].
  assert (NG : NoDup (dkeys groups)) by (apply wf_VDict in WG; exact (proj1 WG)).
  set (gp := [(f_lgroup f, vl); (f_sgroup f, vs)]).
  assert (GL : dget (f_lgroup f) gp = Some vl) by (unfold gp; cbn [dget]; rewrite String.eqb_refl; reflexivity).
  assert (GS : dget (f_sgroup f) gp = Some vs).
  { unfold gp. cbn [dget]. destruct (String.eqb_spec (f_sgroup f) (f_lgroup f)) as [Q|Q]; [congruence|]. rewrite String.eqb_refl. reflexivity. }
  assert (GO : forall h, h <> f_lgroup f -> h <> f_sgroup f -> dget h gp = None).
  { intros h A B. unfold gp. cbn [dget]. apply String.eqb_neq in A. apply String.eqb_neq in B. rewrite A, B. reflexivity. }
  clearbody gp. rewrite (dget_mdict groups gp (f_lgroup f) NG), GL, EL.
  rewrite dget_dset_other by congruence. rewrite (dget_mdict groups gp (f_sgroup f) NG), GS, ES.
  split; [|split].
  - eexists. split; [rewrite dget_dset_other by congruence; apply dget_dset_same|exact FL].
  - eexists. split; [apply dget_dset_same|exact FS].
  - intros h A B. rewrite !dget_dset_other by congruence. rewrite dget_mdict by exact NG. rewrite (GO h A B). reflexivity.
Qed.

(* One group for both layers: its members are the spines, the parameters of the spines override those of the leafs. *)
Theorem fabric_one_group : forall f, wf (VDict (f_leaf f)) -> wf (VDict (f_spine f)) -> f_lgroup f = f_sgroup f ->
  ~ In "members" (dkeys (f_leaf f)) -> ~ In "members" (dkeys (f_spine f)) ->
  let '(g, _, _, _) := generate_fabric ev as_int f in
  exists d, g = [(f_lgroup f, VDict d)] /\ dget "members" d = Some (VList (map VStr (names (f_sname f) (f_spines f)))) /\
    forall k p v, k <> "members" -> (forall s, v = VStr s -> ~ template s) ->
      (layer_param (f_spine f) (k :: p) v -> leaf (k :: p) (VDict d) v) /\
      (layer_param (f_leaf f) (k :: p) v -> ~ In k (dkeys (f_spine f)) -> leaf (k :: p) (VDict d) v).
Proof.
  intros f WL WS EG NL NS. destruct (generated f) as [g [E G]].
  destruct (group_value_spec (names (f_lname f) (f_leafs f)) (f_leaf f) WL NL) as [d [GV [WD [DM DL]]]].
  assert (A1 : add_group [] (f_lgroup f) (layer_nodes ev (f_lname f) (f_leafs f)) =
    [] ++ [(f_lgroup f, VDict [("members", VList (map VStr (names (f_lname f) (f_leafs f))))])]).
  { unfold add_group. cbn [dget dset app]. rewrite layer_members. reflexivity. }
  rewrite A1, adjusted_group in G by (intros []). cbn [app] in G.
  fold (group_value (names (f_lname f) (f_leafs f)) (f_leaf f)) in G. rewrite GV in G.
  set (d2 := dset "members" (VList (map VStr (names (f_sname f) (f_spines f)))) d) in *.
  assert (A2 : add_group [(f_lgroup f, VDict d)] (f_sgroup f) (layer_nodes ev (f_sname f) (f_spines f)) = [] ++ [(f_sgroup f, VDict d2)]).
  { unfold add_group, d2. rewrite <- EG. cbn [dget dset app]. rewrite String.eqb_refl, layer_members. reflexivity. }
  rewrite A2, adjusted_group in G by (intros []). cbn [app] in G.
  assert (E2 : generate_fabric ev as_int f = (g, snd (fst (fst (generate_fabric ev as_int f))), snd (fst (generate_fabric ev as_int f)), snd (generate_fabric ev as_int f))).
  { rewrite E. reflexivity. }
  rewrite E2. clear E E2. rewrite extract_dict, merge_dicts in G.
  pose proof (own_wf _ WS) as WO. pose proof (extract_wf false _ WO) as WE. rewrite extract_dict in WE.
  pose proof WE as WE0. apply wf_VDict in WE0. destruct WE0 as [NE _]. pose proof WO as WO0. apply wf_VDict in WO0. destruct WO0 as [NO _].
  eexists. split; [rewrite G, EG; reflexivity|].
  assert (OD : forall k, dget k (xgo false (own_params (f_spine f))) = None -> 
     dget k (mdict d2 (xgo false (own_params (f_spine f)))) = dget k d2).
  { intros k Q. rewrite dget_mdict by exact NE. rewrite Q. destruct (dget k d2); reflexivity. }
  assert (XN : forall k, ~ In k (dkeys (f_spine f)) -> dget k (xgo false (own_params (f_spine f))) = None).
  { intros k Q. rewrite xgo_dget by exact NO. rewrite own_dget. apply dget_None in Q. rewrite Q. destruct (_ || _)%bool; reflexivity. }
  split; [rewrite (OD _ (XN _ NS)); apply dget_dset_same|].
  intros k p v K T. split.
  - intros LP. rewrite <- merge_dicts. rewrite merge_leaves by exact WE. left. rewrite <- extract_dict.
    apply (extract_leaves false (VDict (own_params (f_spine f))) eq_refl WO). split; [apply own_leaf; exact LP|exact T].
  - intros LP NK. rewrite leaf_cons, (OD _ (XN _ NK)). unfold d2. rewrite dget_dset_other by exact K. rewrite <- leaf_cons.
    apply DL; [exact K|]. split; [exact LP|exact T].
Qed.

(* The data given in the topology overrides the data of the fabric, and the links of the fabric come first. *)
Theorem fabric_added : forall f groups nodes links, wf (VDict nodes) ->
  let '(_, fn, lk, errs) := generate_fabric ev as_int f in
  let '(_, nodes', links', errs') := expand_fabric ev as_int f groups nodes links in
  links' = map VDict lk ++ links /\ errs' = errs /\
  (forall p v, leaf p (VDict nodes') v <-> leaf p (VDict nodes) v \/ (leaf p (VDict fn) v /\ ~ overridden p (VDict nodes))) /\
  forall n, In n (dkeys nodes') <-> In n (dkeys fn) \/ In n (dkeys nodes).
Proof.
  intros f groups nodes links W. unfold expand_fabric. destruct (generate_fabric ev as_int f) as [[[grp fn] lk] errs].
  split; [reflexivity|]. split; [reflexivity|].
  pose proof (merge_leaves (VDict fn) (VDict nodes)) as ML. rewrite merge_dicts in ML |- *. cbn [as_dict].
  split; [intros p v; apply ML; exact W|]. intros n. apply wf_VDict in W. destruct W as [N _]. rewrite dkeys_mdict by exact N.
  rewrite in_app_iff, filter_In. split; [tauto|]. intros [H|H]; [left; exact H|].
  destruct (memS n (dkeys fn)) eqn:E; [left; apply memS_true; exact E|]. right. split; [exact H|reflexivity].
Qed.
End Fabric.

(* ---------- a case ---------- *)

(* a formatter for the default templates, and for values of the form <text>{count} *)
Fixpoint ev0 (s : string) (d : dict val) : string :=
  match s with
  | EmptyString => ""
  | String "{" _ => match dget "count" d with Some (VInt z) => dec (Z.to_nat z) | _ => "" end
  | String c r => String c (ev0 r d)
  end.
Definition int0 (s : string) : option Z := match s with "1" => Some 1%Z | "2" => Some 2%Z | _ => None end.

Definition f0 : fabric :=
  mk_fabric 2 2 "L{count}" "S{count}" "leafs" "spines"
    [("device", VStr "eos"); ("bgp", VDict [("as", VStr "{count}"); ("advertise", VBool true)])] [("device", VStr "frr")].

Definition x0 := expand_fabric ev0 int0 f0 [("spines", VDict [("members", VList [VStr "X"; VStr "S1"]); ("device", VStr "cumulus")])]
  [("L2", VDict [("id", VInt 20)])] [VStr "L1-X"].

Example f0_nodes : dkeys (snd (fst (fst x0))) = ["L1"; "L2"; "S1"; "S2"].
Proof. vm_compute. reflexivity. Qed.

Example f0_node : lookup ["L2"] (VDict (snd (fst (fst x0)))) =
  Some (VDict [("name", VStr "L2"); ("interfaces", VList []); ("_fabric_count", VInt 2); ("bgp", VDict [("as", VInt 2)]); ("id", VInt 20)]).
Proof. vm_compute. reflexivity. Qed.

Example f0_groups : fst (fst (fst x0)) =
  [("leafs", VDict [("members", VList [VStr "L1"; VStr "L2"]); ("device", VStr "eos"); ("bgp", VDict [("advertise", VBool true)])]);
   ("spines", VDict [("members", VList [VStr "S1"; VStr "S2"; VStr "X"]); ("device", VStr "cumulus")])].
Proof. vm_compute. reflexivity. Qed.

Example f0_links : length (snd (fst x0)) = 5 /\ snd x0 = [].
Proof. vm_compute. split; reflexivity. Qed.

Example f0_distinct : NoDup (names ev0 "L{count}" 2 ++ names ev0 "S{count}" 2).
Proof. vm_compute. repeat (constructor; [cbn; intuition discriminate|]). constructor. Qed.

(* ---------- what does not hold ---------- *)

(* One group for both layers: the leafs are not in it, and no error is reported. *)
Theorem fabric_one_group_refuted :
  ~ (forall ev as_int f nodes links, snd (expand_fabric ev as_int f [] nodes links) = [] ->
       forall x, In x (names ev (f_lname f) (f_leafs f)) ->
       match dget (f_lgroup f) (fst (fst (fst (expand_fabric ev as_int f [] nodes links)))) with
       | Some v => In x (group_members v)
       | None => False
       end).
Proof.
  intros H. specialize (H ev0 int0 (mk_fabric 2 2 "L{count}" "S{count}" "fabric" "fabric" [] []) [] [] eq_refl "L1" (or_introl eq_refl)).
  vm_compute in H. destruct H as [H|[H|[]]]; discriminate H.
Qed.

(* The same names for both layers: the nodes are merged and the links have one node, without an error. *)
Theorem fabric_same_names_refuted :
  ~ (forall ev as_int f nodes links, snd (expand_fabric ev as_int f [] nodes links) = [] ->
       f_leafs f + f_spines f <= length (snd (fst (fst (expand_fabric ev as_int f [] nodes links))))).
Proof.
  intros H. specialize (H ev0 int0 (mk_fabric 2 2 "R{count}" "R{count}" "leafs" "spines" [] []) [] [] eq_refl).
  vm_compute in H. lia.
Qed.

Print Assumptions fabric_params_split.
Print Assumptions fabric_nodes_exact.
Print Assumptions fabric_full_mesh.
Print Assumptions fabric_groups_exact.
Print Assumptions fabric_one_group.
Print Assumptions fabric_added.
Print Assumptions fabric_one_group_refuted.
Print Assumptions fabric_same_names_refuted.
