(* Model of the fabric plugin: netsim/extra/fabric/plugin.py.
   Definitions only. Simplified: evaluation of format strings and conversion of the results into
   integers are functions given from outside; the numbers of leafs and spines are natural numbers;
   fabric.leaf and fabric.spine are dictionaries; group members are lists of strings. Not modelled:
   the debugging printout. *)
From Coq Require Import String Ascii ZArith Bool List.
From Verif Require Import Base Box_Model Text_Model Intf_Model Lnk_Model Vlink_Model Clone_Model.
Import ListNotations.
Local Open Scope string_scope.
Local Open Scope list_scope.
Local Open Scope nat_scope.

(* '{' in s *)
Fixpoint has_brace (s : string) : bool :=
  match s with EmptyString => false | String c r => Ascii.eqb c "{" || has_brace r end.

(* fabric/plugin.py:39-51 extract_params *)
Fixpoint extract_params (fmt : bool) (v : val) : val :=
  match v with
  | VDict d =>
      VDict ((fix go (d : list (string * val)) : list (string * val) :=
                match d with
                | [] => []
                | (k, x) :: r =>
                    match x with
                    | VDict _ =>
                        let x' := extract_params fmt x in
                        if negb (truthy x') && fmt then go r else (k, x') :: go r
                    | VStr s => if Bool.eqb (has_brace s) fmt then (k, x) :: go r else go r
                    | _ => if fmt then go r else (k, x) :: go r
                    end
                end) d)
  | _ => v
  end.

Section Fabric.
Variable ev : string -> dict val -> string.        (* utils/strings.py eval_format *)
Variable as_int : string -> option Z.              (* int() *)

(* fabric/plugin.py:14-19 create_node *)
Definition create_node (template : string) (id : nat) : dict val :=
  [("name", VStr (ev template [("count", VInt (Z.of_nat id))])); ("interfaces", VList []);
   ("_fabric_count", VInt (Z.of_nat id))].

Definition node_name (n : dict val) : string := match dget "name" n with Some (VStr s) => s | _ => "" end.

(* fabric/plugin.py:60-76 format_node_params *)
Definition format_value (node : dict val) (s : string) : val :=
  let v := ev s (dset "count" (match dget "_fabric_count" node with Some c => c | None => VNull end) node) in
  match as_int v with Some z => VInt z | None => VStr v end.

Fixpoint format_node_params (node : dict val) (v : val) : val :=
  match v with
  | VDict d =>
      VDict ((fix go (d : list (string * val)) : list (string * val) :=
                match d with
                | [] => []
                | (k, x) :: r =>
                    (k, match x with
                        | VDict _ => format_node_params node x
                        | VStr s => format_value node s
                        | _ => x
                        end) :: go r
                end) d)
  | _ => v
  end.

(* fabric/plugin.py:25-26 add_group *)
Definition add_group (groups : dict val) (g : string) (nodes : list (dict val)) : dict val :=
  let old := match dget g groups with Some (VDict d) => d | _ => [] end in
  dset g (VDict (dset "members" (VList (map (fun n => VStr (node_name n)) nodes)) old)) groups.

(* fabric/plugin.py:82-107 adjust_group_parameters *)
Definition adjust_group_parameters (g : string) (groups : dict val) (nodes : list (dict val)) (params0 : dict val)
  : dict val * list (dict val) :=
  let params := dpop "group" (dpop "name" params0) in
  match params with
  | [] => (groups, nodes)
  | _ =>
      let np := extract_params true (VDict params) in
      let gp := extract_params false (VDict params) in
      (if truthy gp then dset g (merge (match dget g groups with Some x => x | None => VDict [] end) gp) groups else groups,
       if truthy np then map (fun n => as_dict (merge (VDict n) (format_node_params n np))) nodes else nodes)
  end.

(* fabric/plugin.py:128-134 links *)
Definition fabric_links (leafs spines : list (dict val)) : list val :=
  flat_map (fun l => map (fun s => VDict (dset (node_name s) (VDict []) [(node_name l, VDict [])])) spines) leafs.

Record fabric := mk_fabric {
  f_leafs : nat; f_spines : nat;
  f_lname : string; f_sname : string;              (* name templates *)
  f_lgroup : string; f_sgroup : string;            (* group names *)
  f_leaf : dict val; f_spine : dict val            (* fabric.leaf and fabric.spine *)
}.

Definition layer_nodes (template : string) (n : nat) : list (dict val) := map (create_node template) (seq 1 n).

Definition node_dict (l : list (dict val)) : dict val :=
  fold_left (fun d n => dset (node_name n) (VDict n) d) l [].

(* fabric/plugin.py:113-158 generate_fabric: groups, nodes, links, errors *)
Definition generate_fabric (f : fabric) : dict val * dict val * list link * list lerr :=
  let ll := layer_nodes (f_lname f) (f_leafs f) in
  let sl := layer_nodes (f_sname f) (f_spines f) in
  let links := fabric_links ll sl in
  let g1 := add_group [] (f_lgroup f) ll in
  let (g2, ll2) := adjust_group_parameters (f_lgroup f) g1 ll (f_leaf f) in
  let g3 := add_group g2 (f_sgroup f) sl in
  let (g4, sl2) := adjust_group_parameters (f_sgroup f) g3 sl (f_spine f) in
  let nodes := node_dict (ll2 ++ sl2) in
  let (lk, errs) := adjust_link_list (VList links) "fabric" (dkeys nodes) in
  (g4, nodes, lk, errs).

Definition group_members (v : val) : list string :=
  match v with
  | VDict d =>
      match dget "members" d with
      | Some (VList l) => flat_map (fun x => match x with VStr s => [s] | _ => [] end) l
      | _ => []
      end
  | _ => []
  end.

Definition set_members (v : val) (l : list string) : val :=
  match v with VDict d => VDict (dset "members" (VList (map VStr l)) d) | _ => v end.

(* fabric/plugin.py:184-207 topology_expand: groups, nodes, links *)
Definition expand_fabric (f : fabric) (groups nodes : dict val) (links : list val)
  : dict val * dict val * list val * list lerr :=
  let '(grp, fn, lk, errs) := generate_fabric f in
  let g0 := as_dict (merge (VDict grp) (VDict groups)) in
  let g1 := fold_left (fun gs g =>
    match dget g gs, dget g grp with
    | Some x, Some y => dset g (set_members x (sorted_set (group_members x ++ group_members y))) gs
    | _, _ => gs
    end) (dkeys grp) g0 in
  (g1, as_dict (merge (VDict fn) (VDict nodes)), map VDict lk ++ links, errs).
End Fabric.
