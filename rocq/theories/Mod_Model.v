(* Model of netsim/modules/__init__.py: module parameters, effective attributes, dependencies.
   Definitions only. *)
From Coq Require Import String Bool List.
From Verif Require Import Base Graph Box_Model Sort_Model Dev_Model.
Import ListNotations.
Local Open Scope string_scope.
Local Open Scope list_scope.

(* modules/__init__.py:20-23 *)
Definition no_propagate_list : list string :=
  [ "attributes"; "extra_attributes"; "features"; "requires"; "supported_on"; "no_propagate";
    "config_after"; "transform_after"; "warnings" ].

(* python: sub in s *)
Fixpoint contains (sub s : string) : bool :=
  prefix sub s || match s with String _ r => contains sub r | EmptyString => false end.

(* strings of a list value *)
Fixpoint strings_of (l : list val) : list string :=
  match l with
  | [] => []
  | VStr s :: r => s :: strings_of r
  | _ :: r => strings_of r
  end.

(* modules/__init__.py:223-226 keys not to propagate *)
Definition no_propagate (mod_settings : val) : list string :=
  no_propagate_list ++
  (match dget "no_propagate" (entries mod_settings) with Some (VList l) => strings_of l | _ => [] end) ++
  filter (contains "no_propagate") (dkeys (entries mod_settings)).

(* modules/__init__.py:219-229 get_propagated_global_module_params *)
Definition propagated (mod_settings settings : val) : val :=
  fold_left (fun v k => pop k v) (no_propagate mod_settings) settings.

Definition node_box (nm : option val) : val := match nm with Some v => v | None => empty_box end.

(* modules/__init__.py:194-212 merge_node_module_params for one node and one module:
   [glob] is topology[m] (if present), [dev] the device attribute, [def] defaults[m]; all are
   dictionaries. [nm] is n[m] (None when not set). *)
Definition merge_module_params (glob dev : option val) (def : val) (nm : option val) : option val :=
  let nm1 := match glob with
             | None => nm
             | Some g => let s := propagated def g in
                         if truthy s then Some (merge s (node_box nm)) else nm
             end in
  let nm2 := match dev with
             | None => nm1
             | Some d => if truthy d then Some (merge (propagated def d) (node_box nm1)) else nm1
             end in
  let s := propagated def def in
  if truthy s then Some (merge s (node_box nm2)) else nm2.

(* modules/__init__.py:424-447 get_effective_module_attribute; [vals] are the values found in
   intf, link, node, topology, defaults (absent objects left out) *)
Fixpoint effective (merge_dict : bool) (vals : list (option val)) (composite : option val) : option val :=
  match vals with
  | [] => composite
  | None :: r => effective merge_dict r composite
  | Some v :: r =>
      if negb (truthy v) then effective merge_dict r composite
      else if negb (is_dict v) || negb merge_dict then Some v
      else effective merge_dict r
             (Some (match composite with Some c => merge v c | None => v end))
  end.

Definition get_effective_module_attribute (path : list string) (objs : list (option val)) (merge_dict : bool)
  : option val :=
  effective merge_dict
    (map (fun o => match o with Some v => lookup path v | None => None end) objs) None.

(* ---- module lists ---- *)

Record mnode := mk_mnode {
  mn_name : string;
  mn_module : list string;                (* n.module, empty when not set *)
  mn_features : string -> list string     (* features[m].requires *)
}.

(* modules/__init__.py:250-262 adjust_global_modules: the list of modules in use *)
Definition used_modules (topo_module : list string) (nodes : list mnode) : list string :=
  sortS (nodup string_dec (topo_module ++ flat_map mn_module nodes)).

Inductive dep_error :=
| TopoRequires (m r : string)
| NodeRequires (node m r : string).

(* modules/__init__.py:331-360 check_module_dependencies: the list of errors. [defs m] is the
   requires list in the defaults of module m, None when m has no defaults *)
Definition check_module_dependencies (defs : string -> option (list string))
           (topo_module : list string) (nodes : list mnode) : list dep_error :=
  flat_map (fun m =>
    match defs m with
    | None => []
    | Some req =>
        map (TopoRequires m) (filter (fun r => negb (memS r topo_module)) req) ++
        flat_map (fun n =>
          if memS m (mn_module n) then
            map (NodeRequires (mn_name n) m)
                (filter (fun r => negb (memS r (mn_module n))) (req ++ mn_features n m))
          else []) nodes
    end) topo_module.

(* modules/__init__.py:381-383 sort_module_list *)
Definition sort_module_list (mods : list string) (known : string -> bool)
           (requires after : string -> list string) : result sort_error (list string) :=
  dependency (fun m => requires m ++ after m) (filter known mods).
