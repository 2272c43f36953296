(* Model of netsim/cli/_nodeset.py: node sets in CLI arguments. Definitions only. *)
From Coq Require Import String Ascii Bool List.
From Verif Require Import Base Text_Model Groups_Model.
Import ListNotations.

(* _nodeset.py:18-19 is_glob *)
Fixpoint has_char (c : ascii) (s : string) : bool :=
  match s with EmptyString => false | String x r => Ascii.eqb x c || has_char c r end.

Definition is_glob (pattern : string) : bool := has_char "*" pattern || has_char "?" pattern || has_char "[" pattern.

Section Glob.
(* fnmatch.fnmatch of the Python library: [fnmatch name pattern] *)
Variable fnmatch : string -> string -> bool.

(* _nodeset.py:23-31 add_glob: the number of matching names and the new list *)
Fixpoint add_glob (glob : string) (names results : list string) : nat * list string :=
  match names with
  | [] => (0, results)
  | n :: r =>
      if fnmatch n glob
      then let (c, res) := add_glob glob r (if memS n results then results else results ++ [n]) in (S c, res)
      else add_glob glob r results
  end.

Inductive ns_error :=
| NoMatch (e : string)           (* _nodeset.py:52-53 *)
| BadName (e : string)           (* _nodeset.py:58-59 *)
| GroupLoop (e : string).        (* fatal error in group_members *)

(* _nodeset.py:50-62: one element; the new list and reported errors *)
Definition add_element (t : topo) (names : list string) (e : string) (l : list string) : list string * list ns_error :=
  if is_glob e then
    match add_glob e names l with
    | (O, _) => (l, [NoMatch e])
    | (_, res) => (res, [])
    end
  else if dmem e (t_groups t) then
    match group_members t "node" e with
    | Ok ms => (l ++ filter (fun n => negb (memS n l)) ms, [])
    | Err _ => (l, [GroupLoop e])
    end
  else if negb (memS e names) then (l, [BadName e])
  else if negb (memS e l) then (l ++ [e], [])
  else (l, []).

Fixpoint add_elements (t : topo) (names es l : list string) : list string * list ns_error :=
  match es with
  | [] => (l, [])
  | e :: r => let (l1, e1) := add_element t names e l in
              let (l2, e2) := add_elements t names r l1 in (l2, e1 ++ e2)
  end.

(* _nodeset.py:47-65 parse_nodeset; log.exit_on_error stops the command after errors. Simplification: the error log is
   empty when the function is called. *)
Definition parse_nodeset (t : topo) (names : list string) (ns : string) : result (list ns_error) (list string) :=
  match add_elements t names (split "," ns) [] with
  | (l, []) => Ok l
  | (_, errs) => Err errs
  end.
End Glob.

(* _nodeset.py:70-76 get_nodeset, the nodes of the pruned topology *)
Definition get_nodeset {A} (nodes : dict A) (node_list : list string) : dict A :=
  filter (fun kv => memS (fst kv) node_list) nodes.
