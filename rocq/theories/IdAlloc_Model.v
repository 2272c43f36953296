(* Model of the identifier allocator of netsim/modules/_dataplane.py and of the node id
   assignment in netsim/augment/nodes.py. Definitions only. *)
From Coq Require Import String ZArith Bool List.
From Verif Require Import Base.
Import ListNotations.
Open Scope Z_scope.

(* One identifier namespace: the Box returned by global_vars.get(f'{name}_id').
   modules/_dataplane.py:56-100. [iv_next = None] is "no 'next' key".
   Simplification: identifiers are integers (the code also stores strings such as route
   distinguishers in such sets, but never allocates them with get_next_id). *)
Record idvar := mk_idvar {
  iv_used : list Z;            (* idvar.value *)
  iv_next : option Z;          (* idvar.next *)
  iv_max  : Z                  (* idvar.max, meaningful once iv_next is set *)
}.

Definition empty_idvar : idvar := mk_idvar [] None 0.

Inductive id_error :=
| ENoCounter                   (* _dataplane.py:88-89 *)
| ERanOut                      (* _dataplane.py:96-100 *)
| EFuel.                       (* artefact of the model, shown unreachable *)

(* _dataplane.py:63-66 create_id_set *)
Definition create_id_set (v : idvar) : idvar := mk_idvar [] (iv_next v) (iv_max v).

(* _dataplane.py:68-71 extend_id_set *)
Definition extend_id_set (l : list Z) (v : idvar) : idvar :=
  mk_idvar (l ++ iv_used v) (iv_next v) (iv_max v).

(* _dataplane.py:73-75 is_id_used *)
Definition is_id_used (v : idvar) (x : Z) : bool := memZ x (iv_used v).

(* _dataplane.py:77-84 set_id_counter; an empty or missing set becomes an empty set, which
   is the same list here *)
Definition set_id_counter (start max : Z) (v : idvar) : idvar :=
  mk_idvar (iv_used v) (Some start) max.

(* _dataplane.py:90-100 the while loop of get_next_id *)
Fixpoint next_loop (fuel : nat) (used : list Z) (next max : Z) : result id_error Z :=
  match fuel with
  | O => Err EFuel
  | S f =>
      if negb (memZ next used) then Ok next
      else if next + 1 >? max then Err ERanOut
      else next_loop f used (next + 1) max
  end.

(* _dataplane.py:86-100 get_next_id. The loop runs at most |used|+1 times. *)
Definition get_next_id (v : idvar) : result id_error (Z * idvar) :=
  match iv_next v with
  | None => Err ENoCounter
  | Some n =>
      match next_loop (S (length (iv_used v))) (iv_used v) n (iv_max v) with
      | Ok x => Ok (x, mk_idvar (x :: iv_used v) (Some x) (iv_max v))
      | Err e => Err e
      end
  end.

(* A history of calls made by the transformation code to one namespace. *)
Inductive id_op :=
| OpCreate
| OpExtend (l : list Z)
| OpCounter (start max : Z)
| OpNext.

(* What an observer sees: the identifiers registered or handed out. *)
Inductive id_event :=
| EvReset
| EvStatic (l : list Z)
| EvCounter (start max : Z)
| EvAuto (x : Z).

Definition id_step (o : id_op) (v : idvar) : result id_error (id_event * idvar) :=
  match o with
  | OpCreate => Ok (EvReset, create_id_set v)
  | OpExtend l => Ok (EvStatic l, extend_id_set l v)
  | OpCounter s m => Ok (EvCounter s m, set_id_counter s m v)
  | OpNext => match get_next_id v with
              | Ok (x, v') => Ok (EvAuto x, v')
              | Err e => Err e
              end
  end.

(* Run a history; a fatal error stops it, keeping the events so far. *)
Fixpoint id_run (h : list id_op) (v : idvar) : list id_event * result id_error idvar :=
  match h with
  | [] => ([], Ok v)
  | o :: r =>
      match id_step o v with
      | Ok (e, v') => let (es, res) := id_run r v' in (e :: es, res)
      | Err e => ([], Err e)
      end
  end.

(* ---- node ids: netsim/augment/nodes.py ---- *)

(* nodes.py:23 MAX_NODE_ID *)
Definition max_node_id : Z := 250.

(* A node as far as id assignment is concerned: name and optional validated integer id.
   Simplification: must_be_int (nodes.py:418) is represented by the hypothesis that given
   ids are in 1..250 wherever the theorems need it. *)
Definition node := (string * option Z)%type.

(* nodes.py:28-33 reserve_id *)
Definition reserve_id (x : Z) (v : idvar) : bool * idvar :=
  if is_id_used v x then (false, v) else (true, extend_id_set [x] v).

(* nodes.py:417-424 first loop of transform: returns the names of nodes for which the
   "Duplicate static node ID" error is logged *)
Fixpoint reserve_static (ns : list node) (v : idvar) : list string * idvar :=
  match ns with
  | [] => ([], v)
  | (nm, None) :: r => reserve_static r v
  | (nm, Some i) :: r =>
      let (ok, v') := reserve_id i v in
      let (errs, v'') := reserve_static r v' in
      (if ok then errs else nm :: errs, v'')
  end.

(* nodes.py:428-430 second loop of transform (id part only) *)
Fixpoint assign_ids (ns : list node) (v : idvar) : result id_error (list (string * Z)) :=
  match ns with
  | [] => Ok []
  | (nm, Some i) :: r =>
      match assign_ids r v with
      | Ok l => Ok ((nm, i) :: l)
      | Err e => Err e
      end
  | (nm, None) :: r =>
      match get_next_id v with
      | Err e => Err e
      | Ok (x, v') =>
          match assign_ids r v' with
          | Ok l => Ok ((nm, x) :: l)
          | Err e => Err e
          end
      end
  end.

Inductive node_error :=
| DuplicateStatic (names : list string)      (* nodes.py:420-426 *)
| Allocator (e : id_error).

(* nodes.py:416-430 *)
Definition node_ids (ns : list node) (v : idvar) : result node_error (list (string * Z)) :=
  let (errs, v1) := reserve_static ns v in
  match errs with
  | _ :: _ => Err (DuplicateStatic errs)                 (* log.exit_on_error, 426 *)
  | [] =>
      match assign_ids ns (set_id_counter 1 max_node_id v1) with
      | Ok l => Ok l
      | Err e => Err (Allocator e)
      end
  end.
