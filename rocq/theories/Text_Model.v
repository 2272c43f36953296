(* Model of the string handling helpers: python string methods on ASCII strings,
   netsim/data/filemaps.py, utils/read.py:include_environment_defaults, utils/strings.py:make_id.
   Definitions only. *)
From Coq Require Import String Ascii ZArith Bool List.
From Verif Require Import Base Box_Model Dev_Model.
Import ListNotations.
Local Open Scope string_scope.
Local Open Scope list_scope.

(* ---- python string methods ---- *)

Definition between (lo hi : ascii) (c : ascii) : bool :=
  (Ascii.leb lo c && Ascii.leb c hi)%bool.
Definition is_digit : ascii -> bool := between "0" "9".
Definition is_lower : ascii -> bool := between "a" "z".
Definition is_upper : ascii -> bool := between "A" "Z".
Definition is_word (c : ascii) : bool := is_lower c || is_upper c || is_digit c || Ascii.eqb c "_".

Fixpoint map_chars (f : ascii -> ascii) (s : string) : string :=
  match s with EmptyString => EmptyString | String c r => String (f c) (map_chars f r) end.

Fixpoint all_chars (f : ascii -> bool) (s : string) : bool :=
  match s with EmptyString => true | String c r => f c && all_chars f r end.

(* s.lower() *)
Definition lower_char (c : ascii) : ascii :=
  if is_upper c then ascii_of_nat (nat_of_ascii c + 32) else c.
Definition lower : string -> string := map_chars lower_char.

(* s.replace(a,b) for single characters *)
Definition replace_char (a b : ascii) : string -> string :=
  map_chars (fun c => if Ascii.eqb c a then b else c).

(* s.lstrip of the characters satisfying f *)
Fixpoint lstrip (f : ascii -> bool) (s : string) : string :=
  match s with
  | EmptyString => EmptyString
  | String c r => if f c then lstrip f r else s
  end.

Definition starts_with (f : ascii -> bool) (s : string) : bool :=
  match s with EmptyString => false | String c _ => f c end.

(* s.split(c): never empty *)
Fixpoint split (sep : ascii) (s : string) : list string :=
  match s with
  | EmptyString => [EmptyString]
  | String c r =>
      if Ascii.eqb c sep then EmptyString :: split sep r
      else match split sep r with
           | [] => [String c EmptyString]
           | h :: t => String c h :: t
           end
  end.

(* s.split(c,1), unpacked into two variables; None when there is only one part (ValueError) *)
Fixpoint split1 (sep : ascii) (s : string) : option (string * string) :=
  match s with
  | EmptyString => None
  | String c r =>
      if Ascii.eqb c sep then Some (EmptyString, r)
      else match split1 sep r with
           | Some (a, b) => Some (String c a, b)
           | None => None
           end
  end.

(* ---- data/filemaps.py ---- *)

(* filemaps.py:32-33 dict_to_mapping *)
Definition dict_to_mapping (d : dict string) : list string :=
  map (fun kv => (fst kv ++ ":" ++ snd kv)%string) d.

(* filemaps.py:38-39 mapping_to_dict; None is a ValueError (entry without a colon) *)
Fixpoint mapping_fold (m : list string) (acc : dict string) : option (dict string) :=
  match m with
  | [] => Some acc
  | l :: r => match split1 ":" l with
              | Some (k, v) => mapping_fold r (dset k v acc)
              | None => None
              end
  end.
Definition mapping_to_dict (m : list string) : option (dict string) := mapping_fold m [].

(* filemaps.py:20-25: the inner loop of box_to_dict *)
Fixpoint collapse (k : string) (v : val) : string * val :=
  match v with
  | VDict [(k', v')] => collapse (k ++ "." ++ k')%string v'
  | _ => (k, v)
  end.

(* filemaps.py:18-27 box_to_dict *)
Definition box_to_dict (d : dict val) : dict val :=
  fold_left (fun acc kv => let (k, v) := collapse (fst kv) (snd kv) in dset k v acc) d [].

Inductive map_error := MapNotString (k : string) | MapEntryType (idx : nat) | MapEntryFormat (idx : nat) | MapType.

(* filemaps.py:44-65 check_mapping_list *)
Fixpoint check_mapping_list (idx : nat) (l : list val) : list map_error :=
  match l with
  | [] => []
  | VStr s :: r =>
      if Nat.eqb (length (split ":" s)) 2 then check_mapping_list (S idx) r
      else MapEntryFormat (S idx) :: check_mapping_list (S idx) r
  | _ :: r => MapEntryType (S idx) :: check_mapping_list (S idx) r
  end.

(* filemaps.py:70-80 check_mapping_dict *)
Definition check_mapping_dict (d : dict val) : list map_error :=
  flat_map (fun kv => match snd kv with VStr _ => [] | _ => [MapNotString (fst kv)] end) d.

(* the string values of a dictionary (f-string of a string is the string) *)
Fixpoint string_dict (d : dict val) : dict string :=
  match d with
  | [] => []
  | (k, VStr s) :: r => (k, s) :: string_dict r
  | _ :: r => string_dict r
  end.

(* filemaps.py:88-110 normalize_file_mapping: new value of parent[key] and errors; None when
   the key is not there. Non-string entries of an accepted list cannot occur. *)
Definition normalize_file_mapping (value : option val) : option val * list map_error :=
  match value with
  | None => (None, [])
  | Some VNull => (Some (VList []), [])
  | Some (VDict d) =>
      let v := box_to_dict d in
      match check_mapping_dict v with
      | [] => (Some (VList (map VStr (dict_to_mapping (string_dict v)))), [])
      | e => (Some (VList []), e)
      end
  | Some (VList l) =>
      match check_mapping_list 0 l with
      | [] => (Some (VList l), [])
      | e => (Some (VList []), e)
      end
  | Some v => (Some v, [MapType])
  end.

(* ---- utils/read.py ---- *)

(* read.py:229 k.replace('..','_') *)
Fixpoint undouble (s : string) : string :=
  match s with
  | EmptyString => EmptyString
  | String c r =>
      match r with
      | String c' r' =>
          if Ascii.eqb c "." && Ascii.eqb c' "." then String "_" (undouble r') else String c (undouble r)
      | EmptyString => String c EmptyString
      end
  end.

Fixpoint drop (n : nat) (s : string) : string :=
  match n, s with
  | S m, String _ r => drop m r
  | _, _ => s
  end.

(* read.py:223-229 include_environment_defaults: the defaults key set by an environment
   variable, None when the variable is ignored *)
Definition env_key (name : string) : option string :=
  let k := lower name in
  if prefix "netlab_" k then Some (undouble (replace_char "_" "." (drop 7 k))) else None.

(* ---- utils/strings.py ---- *)

(* strings.py:204-211 make_id *)
Definition make_id (txt : string) : string :=
  let id := map_chars (fun c => if is_word c then c else "_"%char) txt in
  let id := lstrip is_digit id in
  if starts_with (Ascii.eqb "_") id && negb (starts_with (Ascii.eqb "_") txt) then
    match lstrip (Ascii.eqb "_") id with
    | EmptyString => id
    | s => s
    end
  else id.
