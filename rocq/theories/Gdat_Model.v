(* Model of the check of group data: netsim/augment/groups.py check_group_data_structure. Definitions only. *)
From Coq Require Import String Ascii ZArith Bool List.
From Verif Require Import Base Box_Model Dev_Model Groups_Model Ndev_Model.
Import ListNotations.
Local Open Scope string_scope.
Local Open Scope list_scope.

Inductive gerr :=
| GType (g : string)              (* invalid group type *)
| GCheck (g e : string)           (* attribute validation *)
| GAll (g : string)               (* group all has members *)
| GData (g k : string)            (* module or device in node_data *)
| GMember (g n : string).         (* unknown member *)

Section GroupData.

(* attributes of groups of a type (defaults.attributes.X_group) *)
Variable attrs : string -> list string.
(* objects of a type: names of nodes, VLANs or VRFs of the topology *)
Variable objects : string -> list string.
(* errors found by must_be_id, validate_attributes and must_be_list (groups.py:129, 156-166, 177, 185-194); groups are dictionaries and
   changes made by these checks (true values and single values turned into dictionaries and lists) are not modelled *)
Variable check : string -> dict val -> list string.

(* groups.py:136 type of a group; types are texts *)
Definition group_type (g : dict val) : string := match dget "type" g with Some (VStr t) => t | _ => "node" end.

(* members are lists of texts (groups.py:103-105 checks the lists before, groups.py:213 again) *)
Definition member_names (g : dict val) : list string :=
  match dget "members" g with
  | Some (VList l) => flat_map (fun v => match v with VStr s => [s] | _ => [] end) l
  | _ => []
  end.

(* groups.py:168-169 *)
Definition with_members (g : dict val) : dict val := if dmem "members" g then g else dset "members" (VList []) g.

(* groups.py:129-202 errors found before the data are moved *)
Definition group_errors (name : string) (g : dict val) : list gerr :=
  (if memS (group_type g) ["node"; "vlan"; "vrf"] then [] else [GType name])
  ++ map (GCheck name) (check name g)
  ++ (if String.eqb name "all" && truthy (rd "members" (with_members g)) then [GAll name] else [])
  ++ (if dmem "node_data" g && String.eqb (group_type g) "node" then
        flat_map (fun k => if dmem k (rdd "node_data" g) then [GData name k] else []) ["module"; "device"]
      else []).

(* groups.py:207-211 attributes that do not belong to the group move to node_data *)
Definition move_one (ga : list string) (g : dict val) (k : string) : dict val :=
  if memS k ga then g
  else dpop k (dset "node_data" (VDict (dset k (rd k g) (rdd "node_data" g))) g).
Definition move_attributes (ga : list string) (g : dict val) : dict val := fold_left (move_one ga) (dkeys g) g.

(* groups.py:125-224 one group; [prune]: unknown members are removed, [names]: names of groups, [errs]: errors reported so far *)
Definition check_group (prune : bool) (names : list string) (name : string) (g : dict val) (errs : list gerr) : dict val * list gerr :=
  if underscore name then (g, errs)
  else
    let g1 := with_members g in
    match errs ++ group_errors name g with
    | [] =>
        let g2 := move_attributes (attrs (group_type g)) g1 in
        let known := fun n => memS n (objects (group_type g)) || memS n names in
        if prune then (dset "members" (VList (map VStr (filter known (member_names g2)))) g2, [])
        else (g2, map (GMember name) (filter (fun n => negb (known n)) (member_names g2)))
    | e => (g1, e)
    end.

(* groups.py:108-224 check_group_data_structure, loop over groups *)
Fixpoint check_groups (prune : bool) (names : list string) (groups : dict (dict val)) (errs : list gerr) : dict (dict val) * list gerr :=
  match groups with
  | [] => ([], errs)
  | (n, g) :: r =>
      let s := check_group prune names n g errs in
      let t := check_groups prune names r (snd s) in
      ((n, fst s) :: fst t, snd t)
  end.
End GroupData.
