(* Model of netsim/utils/sort.py. Definitions only. *)
From Coq Require Import String Bool List.
From Verif Require Import Base.
Import ListNotations.

Inductive sort_error := DependencyLoop.     (* sort.py:39-40 log.FatalError *)

(* sort.py:33-35: does the object depend on something still in the list of this pass *)
Definition blocked (dep : string -> list string) (mods : list string) (m : string) : bool :=
  match filter (fun r => memS r mods) (dep m) with [] => false | _ => true end.

(* sort.py:30-36 one pass: returns (skipped, added to output) *)
Fixpoint pass (dep : string -> list string) (mods todo : list string) : list string * list string :=
  match todo with
  | [] => ([], [])
  | m :: r =>
      let (sk, out) := pass dep mods r in
      if blocked dep mods m then (m :: sk, out) else (sk, m :: out)
  end.

(* sort.py:29-42 the while loop; [w] is watchdog_counter *)
Fixpoint dep_loop (dep : string -> list string) (w : nat) (mods output : list string)
  : result sort_error (list string) :=
  match mods with
  | [] => Ok output
  | _ =>
      let (skipped, added) := pass dep mods mods in
      match w with
      | O => Err DependencyLoop
      | S w' => dep_loop dep w' skipped (output ++ added)
      end
  end.

(* sort.py:22-43 dependency *)
Definition dependency (dep : string -> list string) (mods : list string)
  : result sort_error (list string) :=
  match mods with
  | [] => Ok mods
  | [_] => Ok mods
  | _ => dep_loop dep (length mods) mods []
  end.
