(* Model of netsim/augment/groups.py: members created automatically, groups of nodes, groups of BGP autonomous systems and data
   exported from groups. Definitions only. A group without a list of members has no members. *)
From Coq Require Import String Ascii ZArith Bool List.
From Verif Require Import Base Box_Model Text_Model.
From Verif Require Vrf_Model Clone_Model.
Import ListNotations.
Local Open Scope string_scope.
Local Open Scope list_scope.

Definition hidden (s : string) : bool := match s with String c _ => Ascii.eqb c "_" | EmptyString => false end.

(* a group: type, members, _auto_create *)
Record agroup := mk_ag { ag_type : option string; ag_members : list string; ag_auto : bool }.

(* topology[ns]; a missing dictionary is empty *)
Definition objects (ns : string) (objs : dict (dict val)) : dict val := match dget ns objs with Some d => d | None => [] end.

Section Auto.
Variables top_names def_names : list string.               (* names of groups of the topology and of default groups *)

(* augment/groups.py:260-271 auto_create_members: one member *)
Definition create_member (ns : string) (objs : dict (dict val)) (n : string) : dict (dict val) :=
  if memS n top_names || memS n def_names then objs
  else if dmem n (objects ns objs) then objs
  else dset ns (dset n (if String.eqb ns "nodes" then VDict [("name", VStr n); ("interfaces", VList [])] else VDict []) (objects ns objs)) objs.

(* augment/groups.py:244-271 auto_create_members: one group *)
Definition create_members (all : bool) (objs : dict (dict val)) (x : string * agroup) : dict (dict val) :=
  if hidden (fst x) then objs
  else if negb (ag_auto (snd x)) && negb all then objs
  else fold_left (create_member (match ag_type (snd x) with Some t => t | None => "node" end ++ "s")%string) (ag_members (snd x)) objs.

(* augment/groups.py:235-271 auto_create_members *)
Definition auto_create (all : bool) (groups : dict agroup) (objs : dict (dict val)) : dict (dict val) := fold_left (create_members all) groups objs.
End Auto.

(* augment/groups.py:527-538 precheck_groups, after successful checks; [all] - _auto_create in groups or default groups *)
Definition precheck (all : bool) (groups defaults : dict agroup) (objs : dict (dict val)) : dict (dict val) :=
  auto_create (dkeys groups) (dkeys defaults) false defaults (auto_create (dkeys groups) (dkeys defaults) all groups objs).

(* a group: type, members *)
Record ngroup := mk_ng { ng_type : option string; ng_members : list string }.

Definition node_group (g : ngroup) : bool := match ng_type g with Some t => String.eqb t "node" | None => true end.

(* augment/groups.py:283-293 add_node_level_groups: one group of a node *)
Definition add_to_group (node : string) (acc : dict ngroup * list (string * string)) (name : string) : dict ngroup * list (string * string) :=
  let g := match dget name (fst acc) with Some g => g | None => mk_ng None [] end in
  if node_group g then
    (dset name (mk_ng (ng_type g) (if memS node (ng_members g) then ng_members g else ng_members g ++ [node])) (fst acc), snd acc)
  else (fst acc, snd acc ++ [(node, name)]).

(* augment/groups.py:276-293 add_node_level_groups; a node has a list of groups *)
Definition add_node_groups (nodes : dict (list string)) (groups : dict ngroup) : dict ngroup * list (string * string) :=
  fold_left (fun acc x => fold_left (add_to_group (fst x)) (snd x) acc) nodes (groups, []).

(* a node: list of modules (None inside - not a list), AS number *)
Record bnode := mk_bn { bn_mod : option (option (list string)); bn_as : option val }.
Inductive aserr := AStatic (g : string) | AExists (g : string).

Section As.
Variable asn : val -> Z.                                   (* an AS number: an integer or asdot text; 0 - anything else *)
Variable g_mod : list string.                              (* modules of the topology *)
Variable g_as : val.                                       (* global AS number *)

(* augment/groups.py:483-499 create_bgp_autogroups; 0 - no group *)
Definition node_as (n : bnode) : Z :=
  match (match bn_mod n with Some m => m | None => Some g_mod end) with
  | None => 0
  | Some l => if memS "bgp" l then asn (match bn_as n with Some v => v | None => g_as end) else 0
  end.

(* augment/groups.py:501 create_bgp_autogroups *)
Definition as_group (z : Z) : string := ("as" ++ Vrf_Model.zdec z)%string.

(* augment/groups.py:474-475 create_bgp_autogroups: re.match('as\\d+$',gname) *)
Definition is_as_group (s : string) : bool :=
  match s with
  | String "a" (String "s" (String c r)) => is_digit c && all_chars is_digit r
  | _ => false
  end.

(* augment/groups.py:510-513 create_bgp_autogroups *)
Definition add_as (groups : dict (list string)) (x : string * bnode) : dict (list string) :=
  let z := node_as (snd x) in
  if (z =? 0)%Z then groups
  else dset (as_group z) (match dget (as_group z) groups with Some l => l | None => [] end ++ [fst x]) groups.

(* augment/groups.py:502-508 create_bgp_autogroups; [seen] - groups with errors *)
Fixpoint as_exists (names seen : list string) (nodes : dict bnode) : list aserr :=
  match nodes with
  | [] => []
  | (_, n) :: r =>
      let z := node_as n in
      if (z =? 0)%Z then as_exists names seen r
      else if memS (as_group z) names then
        (if memS (as_group z) seen then [] else [AExists (as_group z)]) ++ as_exists names (seen ++ [as_group z]) r
      else as_exists names seen r
  end.

(* augment/groups.py:467-515 create_bgp_autogroups *)
Definition as_groups (nodes : dict bnode) (groups : dict (list string)) : dict (list string) * list aserr :=
  (fold_left add_as nodes groups,
   flat_map (fun g => if is_as_group (fst g) && negb (match snd g with [] => true | _ => false end) then [AStatic (fst g)] else []) groups ++
   as_exists (dkeys nodes) [] nodes).
End As.

(* a conflict: group, object, attribute *)
Definition conflict := (string * string * string)%type.

Section Export.
Variables copy unique : list string.                       (* copied attributes, unique attributes *)

Definition attrs (obj : string) (t : dict (dict val)) : dict val := match dget obj t with Some d => d | None => [] end.

(* augment/groups.py:451-457 export_group_node_data *)
Definition conflicts (g obj : string) (have new : dict val) : list conflict :=
  flat_map (fun a => match dget a have, dget a new with
                     | Some x, Some y => if Clone_Model.veqb x y then [] else [(g, obj, a)]
                     | _, _ => []
                     end) unique.

(* augment/groups.py:458-461 export_group_node_data *)
Definition copy_missing (have new : dict val) : dict val :=
  fold_left (fun h a => match dget a new with
                        | Some v => if dmem a h then h else dset a v h
                        | None => h
                        end) copy have.

(* augment/groups.py:445-461 export_group_node_data: one object of a group *)
Definition export_object (g : string) (acc : dict (dict val) * list conflict) (x : string * dict val) : dict (dict val) * list conflict :=
  let have := attrs (fst x) (fst acc) in
  (dset (fst x) (copy_missing have (snd x)) (fst acc), snd acc ++ conflicts g (fst x) have (snd x)).

(* augment/groups.py:438-461 export_group_node_data; [groups] - dictionaries with objects in the data of groups,
   null objects are empty dictionaries *)
Definition export_data (groups : dict (dict (dict val))) (t : dict (dict val)) : dict (dict val) * list conflict :=
  fold_left (fun acc g => if hidden (fst g) then acc else fold_left (export_object (fst g)) (snd g) acc) groups (t, []).
End Export.
