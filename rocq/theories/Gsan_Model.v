(* Model of early checks of groups: netsim/augment/groups.py check_group_data_sanity. Definitions only. *)
From Coq Require Import String Ascii ZArith Bool List.
From Verif Require Import Base Box_Model Dev_Model Types_Model Mod_Model Groups_Model.
Import ListNotations.
Local Open Scope string_scope.
Local Open Scope list_scope.

(* all groups are fine; a report and a false result; an exception *)
Inductive outcome :=
| SDone
| SNull (n : string)        (* group without a definition *)
| SNode (n : string)        (* group named like a node *)
| SMembers (n : string)     (* members are not a list *)
| SStop (n : string).       (* 'members' in a number or a method of a text: the program stops *)

(* groups.py:102-104 must_be_list without an empty list for missing members *)
Definition members_opts : topts := mk_topts (Some (VList [])) (Some (VList [])) (Some false) None [].

(* groups.py:80-104 one group; 'members' in a text looks for a part of the text *)
Definition sane_group (nodes : list string) (n : string) (v : val) : val * outcome :=
  if underscore n then (v, SDone)
  else match v with
       | VNull => (v, SNull n)
       | _ =>
           let v1 := match v with VList _ => VDict [("members", v)] | _ => v end in
           if memS n nodes then (v1, SNode n)
           else match v1 with
                | VDict d =>
                    if dmem "members" d then
                      let r := type_test (must_be_list false) members_opts "members" d in
                      (VDict (fst r), match snd r with [] => SDone | _ => SMembers n end)
                    else (v1, SDone)
                | VStr s => (v1, if contains "members" s then SStop n else SDone)
                | _ => (v1, SStop n)
                end
       end.

(* groups.py:67-106 check_group_data_sanity; the groups are a dictionary *)
Fixpoint check_group_sanity (nodes : list string) (groups : dict val) : dict val * outcome :=
  match groups with
  | [] => ([], SDone)
  | (n, v) :: r =>
      let s := sane_group nodes n v in
      match snd s with
      | SDone => let t := check_group_sanity nodes r in ((n, fst s) :: fst t, snd t)
      | e => ((n, fst s) :: r, e)
      end
  end.
