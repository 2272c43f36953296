(* Model of netsim/utils/files.py: search paths and file lookup. Definitions only. *)
From Coq Require Import String Ascii Bool List.
From Verif Require Import Base Text_Model Types_Model Mod_Model.
Import ListNotations.
Local Open Scope string_scope.
Local Open Scope list_scope.

(* s.replace(old,new) for a non-empty [old]; [skip] characters belong to the previous occurrence *)
Fixpoint replace_from (old new : string) (skip : nat) (s : string) : string :=
  match s with
  | EmptyString => EmptyString
  | String c r =>
      match skip with
      | S k => replace_from old new k r
      | O => if prefix old s then (new ++ replace_from old new (String.length old - 1) r)%string
             else String c (replace_from old new 0 r)
      end
  end.
Definition replace_str (old new s : string) : string := replace_from old new 0 s.

Definition is_slash (c : ascii) : bool := Ascii.eqb c "/".

(* s[:s.rfind('/')+1] *)
Fixpoint head_part (s : string) : string :=
  match s with
  | EmptyString => EmptyString
  | String c r => match head_part r with
                  | EmptyString => if is_slash c then String c EmptyString else EmptyString
                  | h => String c h
                  end
  end.

(* os.path.dirname: the head without trailing slashes unless it consists of slashes only *)
Definition dirname (s : string) : string :=
  let h := head_part s in if all_chars is_slash h then h else rstrip is_slash h.

(* pathlib: a / b, as text. Simplification: Path(x) does not normalize the text; [resolve] and [is_dir] do. *)
Definition path_join (a b : string) : string :=
  if starts_with is_slash b then b else (a ++ "/" ++ b)%string.

Inductive path_error := EmptyPathEntry.       (* files.py:106 p_entry[0]: IndexError *)

Section Env.
(* str(Path(x).resolve()), Path(x).is_dir(), os.path.expanduser(x), get_moddir(), topology.input[0] *)
Variable resolve : string -> string.
Variable is_dir : string -> bool.
Variable expanduser : string -> string.
Variable moddir : string.
Variable topo : option string.

(* files.py:81-82 *)
Definition expand_package (path : string) : string := path_join moddir (replace_str "package:" "" path).

(* files.py:90-109: path of one entry, None: the entry is skipped *)
Definition entry_path (curdir p : string) : result path_error (option string) :=
  if contains "package:" p then Ok (Some (expand_package p))
  else if contains "topology:" p then
    match topo with
    | None => Ok None
    | Some t => if prefix "package:" t then Ok (Some (expand_package (dirname t)))
                else Ok (Some (replace_str "topology:" (dirname t ++ "/")%string p))
    end
  else if starts_with (Ascii.eqb "~") p then Ok (Some (expanduser p))
  else match p with
       | EmptyString => Err EmptyPathEntry
       | String c _ => if Ascii.eqb c "." || is_slash c then Ok (Some p) else Ok (Some (path_join curdir p))
       end.

(* files.py:89-116 the loop; [acc] is a_path *)
Fixpoint search_loop (curdir : string) (skip_missing : bool) (path acc : list string) : result path_error (list string) :=
  match path with
  | [] => Ok acc
  | p :: r =>
      match entry_path curdir p with
      | Err e => Err e
      | Ok None => search_loop curdir skip_missing r acc
      | Ok (Some q) =>
          if negb (memS (resolve q) acc) && (is_dir q || negb skip_missing)
          then search_loop curdir skip_missing r (acc ++ [resolve q])
          else search_loop curdir skip_missing r acc
      end
  end.

(* files.py:84-116 absolute_search_path *)
Definition absolute_search_path (path : list string) (curdir : string) (skip_missing : bool) := search_loop curdir skip_missing path [].
End Env.

(* os.path.join(a,b) *)
Fixpoint ends_slash (s : string) : bool :=
  match s with
  | EmptyString => false
  | String c EmptyString => is_slash c
  | String _ r => ends_slash r
  end.
Definition os_join (a b : string) : string :=
  if starts_with is_slash b then b
  else if String.eqb a EmptyString || ends_slash a then (a ++ b)%string else (a ++ "/" ++ b)%string.

(* files.py:120-126 find_file; [exists_] is os.path.exists *)
Fixpoint find_file (exists_ : string -> bool) (path : string) (dirs : list string) : option string :=
  match dirs with
  | [] => None
  | d :: r => let c := os_join d path in if exists_ c then Some c else find_file exists_ path r
  end.
