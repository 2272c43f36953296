(* Model of the data trees used by netlab: python-box Box objects. Definitions only.
   netsim/data/__init__.py get_box creates them; the operator used everywhere in netlab is
   Box.__add__ (python-box merge_update). *)
From Coq Require Import String ZArith Bool List.
From Verif Require Import Base.
Import ListNotations.

(* Simplifications: floats and other python objects are left out; keys are strings without
   dots (Box splits dotted keys); lists are leaves as far as merging is concerned. *)
Inductive val :=
| VNull
| VBool (b : bool)
| VInt (z : Z)
| VStr (s : string)
| VList (l : list val)
| VDict (d : list (string * val)).

Definition is_dict (v : val) : bool := match v with VDict _ => true | _ => false end.

(* Box.__add__ / merge_update (python-box, used e.g. in groups.py:415, modules/__init__.py:205):
   dictionaries are merged recursively, everything else in the right operand replaces the left
   value; new keys are appended. *)
Fixpoint merge (a b : val) {struct b} : val :=
  match b with
  | VDict db =>
      match a with
      | VDict da =>
          VDict ((fix go (da : dict val) (db : list (string * val)) : dict val :=
                    match db with
                    | [] => da
                    | (k, v) :: r =>
                        go (dset k (match dget k da with Some va => merge va v | None => v end) da) r
                    end) da db)
      | _ => b
      end
  | _ => b
  end.

(* value at a path; Box.get('a.b.c') *)
Fixpoint lookup (p : list string) (v : val) : option val :=
  match p with
  | [] => Some v
  | k :: r => match v with
              | VDict d => match dget k d with Some x => lookup r x | None => None end
              | _ => None
              end
  end.

(* python truth value *)
Definition truthy (v : val) : bool :=
  match v with
  | VNull => false
  | VBool b => b
  | VInt z => negb (Z.eqb z 0)
  | VStr s => negb (String.eqb s "")
  | VList l => match l with [] => false | _ => true end
  | VDict d => match d with [] => false | _ => true end
  end.

(* netsim/data/__init__.py get_empty_box *)
Definition empty_box : val := VDict [].
