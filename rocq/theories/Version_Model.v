(* Model of get_versioned_topology (netsim/utils/versioning.py). Definitions only. *)
From Coq Require Import String Ascii ZArith Bool List.
From Verif Require Import Base Text_Model Types_Model Vrf_Model.
Import ListNotations.
Open Scope Z_scope.

(* packaging.version.Version for final releases: dot-separated numbers. Simplification: epochs, pre-, post- and
   development releases and local versions are not modelled; a candidate that needs them counts as invalid. The
   running version is the base version of a development version (versioning.py:43-48). *)
Definition parse_number (s : string) : option Z :=
  if all_chars is_digit s then parse_digits false 0 s else None.
Fixpoint all_some {A} (l : list (option A)) : option (list A) :=
  match l with
  | [] => Some []
  | Some x :: r => match all_some r with Some t => Some (x :: t) | None => None end
  | None :: _ => None
  end.
Definition parse_version (s : string) : option (list Z) := all_some (map parse_number (split "." s)).

(* str(Version) *)
Fixpoint version_str (v : list Z) : string :=
  match v with
  | [] => EmptyString
  | [x] => zdec x
  | x :: r => (zdec x ++ String "." (version_str r))%string
  end.

(* a <= b: missing components are zero *)
Fixpoint vle (a b : list Z) : bool :=
  match a, b with
  | [], _ => true
  | x :: r, [] => (x =? 0) && vle r []
  | x :: r, y :: t => (x <? y) || ((x =? y) && vle r t)
  end.

Inductive version_error := InvalidVersion (text : string).     (* versioning.py:91-93, fatal *)

(* versioning.py:88-104: the loop over candidates; a version is "in" the specifier ">= v" when v <= version *)
Fixpoint best_loop (running : list Z) (cands : list string) (best : option (list Z)) : result version_error (option (list Z)) :=
  match cands with
  | [] => Ok best
  | c :: r =>
      match parse_version c with
      | None => Err (InvalidVersion c)
      | Some v =>
          if negb (vle v running) then best_loop running r best
          else match best with
               | None => best_loop running r (Some v)
               | Some b => if vle v b then best_loop running r best else best_loop running r (Some v)
               end
      end
  end.

(* versioning.py:75-113 get_versioned_topology: [cands] are the version parts of the files found, in file system
   order; the result is the file name. *)
Definition get_versioned_topology (running : list Z) (stem sfx : string) (cands : list string) : result version_error string :=
  match best_loop running cands None with
  | Err e => Err e
  | Ok None => Ok (stem ++ sfx)%string
  | Ok (Some b) => Ok (stem ++ "." ++ version_str b ++ sfx)%string
  end.
