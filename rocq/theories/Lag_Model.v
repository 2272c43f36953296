(* Model of the link aggregation module (netsim/modules/lag.py): sides of a LAG link, LAG interface
   indices, MLAG peer addresses and MAC addresses. Definitions only. *)
From Coq Require Import String ZArith Bool List.
From Verif Require Import Base IdAlloc_Model.
Import ListNotations.
Open Scope Z_scope.

(* ---- sides of a LAG link ---- *)

(* A normalized member link: the nodes of its two interfaces (lag.py:84-108 normalized_members checks that there
   are two different nodes) *)
Definition member := (string * string)%type.

Definition add_node (n : string) (s : list string) : list string := if memS n s then s else s ++ [n].

(* lag.py:181-198: one member. [pairs] is mlag_pairs; a missing peer is None, which is in no set *)
Definition side_of (pairs : dict string) (n : string) (s : list string) : bool :=
  memS n s || match dget n pairs with Some p => memS p s | None => false end.

Definition split_member (pairs : dict string) (m : member) (ab : list string * list string) : option (list string * list string) :=
  let (A, B) := ab in let (a, b) := m in
  if side_of pairs a A || side_of pairs b B then Some (add_node a A, add_node b B)
  else if side_of pairs a B || side_of pairs b A then Some (add_node b A, add_node a B)
  else None.

Fixpoint split_members (pairs : dict string) (ms : list member) (ab : list string * list string) : option (list string * list string) :=
  match ms with
  | [] => Some ab
  | m :: r => match split_member pairs m ab with Some ab' => split_members pairs r ab' | None => None end
  end.

(* lag.py:175-200: the sides of a link with a non-empty list of members; None: unsupported configuration *)
Definition lag_sides (pairs : dict string) (ms : list member) : option (list string * list string) :=
  match ms with
  | [] => None
  | (a, b) :: r => split_members pairs r ([a], [b])
  end.

(* ---- LAG interface indices ---- *)

(* Per-node next index (node._lag_ifindex) and the topology-wide allocator of LAG ids *)
Record lag_state := mk_ls { ls_next : dict Z; ls_ids : idvar }.

(* An interface of a LAG link: node, lag.ifindex configured on the interface (or on member links) *)
Record lag_intf := mk_li { li_node : string; li_ifindex : option Z }.

Inductive lag_error :=
| LagReserved (node : string)      (* lag.py:141-147 *)
| LagIds (e : id_error).           (* fatal error in get_next_id *)

(* lag.py:113-149 set_lag_ifindex. [start]: defaults.lag.start_lag_id, [reserved]: reserved indices of the node's
   device, [mside]: the interface is on the M-side of an MLAG, [bond]: lag.ifindex of the link on this side. *)
Definition set_lag_ifindex (start : Z) (reserved : string -> list Z) (mside : bool) (st : lag_state) (bond : option Z) (i : lag_intf)
  : result lag_error (lag_state * option Z * Z) :=
  let n := li_node i in
  let next := dget n (ls_next st) in
  let finish st' bond' x := if memZ x (reserved n) then Err (LagReserved n) else Ok (st', bond', x) in
  let track st' x := mk_ls (dset n (x + 1) (ls_next st')) (ls_ids st') in
  match li_ifindex i with
  | Some x => finish st (match bond with None => Some x | Some l => if mside then Some x else Some l end) x
  | None =>
      match bond with
      | None =>
          if mside then
            match next with
            | Some x => finish (track st x) (Some x) x
            | None => match get_next_id (ls_ids st) with
                      | Ok (x, ids') => finish (track (mk_ls (ls_next st) ids') x) (Some x) x
                      | Err e => Err (LagIds e)
                      end
            end
          else let x := match next with Some x => x | None => start end in finish (track st x) None x
      | Some l =>
          match next with
          | Some x => if negb (x =? 0) && (x >? l)
                      then finish (track st x) (if mside then Some x else Some l) x
                      else finish (track st l) (Some l) l
          | None => finish (track st l) (Some l) l
          end
      end
  end.

(* What happened: index [ev_ifindex] was given to node [ev_node]; [ev_own]: it was configured on the interface *)
Record lag_event := mk_le { ev_node : string; ev_ifindex : Z; ev_own : bool }.

(* The state after a failed call: the index was tracked before the reserved range was checked *)
Definition state_after_error (start : Z) (mside : bool) (st : lag_state) (bond : option Z) (i : lag_intf) : lag_state :=
  match set_lag_ifindex start (fun _ => []) mside st bond i with Ok (st', _, _) => st' | Err _ => st end.

(* lag.py:209-233: interfaces on one side; an error stops the processing of the link *)
Fixpoint lag_side (start : Z) (reserved : string -> list Z) (mside : bool) (st : lag_state) (bond : option Z) (is : list lag_intf)
  : lag_state * list lag_event * option lag_error :=
  match is with
  | [] => (st, [], None)
  | i :: r =>
      match set_lag_ifindex start reserved mside st bond i with
      | Err e => (state_after_error start mside st bond i, [], Some e)
      | Ok (st', bond', x) =>
          match lag_side start reserved mside st' bond' r with
          | (st'', evs, e) => (st'', mk_le (li_node i) x (match li_ifindex i with Some _ => true | None => false end) :: evs, e)
          end
      end
  end.

(* lag.py:207-233: the two sides of a link; a side with two nodes is an MLAG side. [lk_ifindex]: lag.ifindex of the
   link. Simplification: device support checks (lag.py:222-228) are not modelled. *)
Record lag_link := mk_ll { lk_ifindex : option Z; lk_a : list lag_intf; lk_b : list lag_intf }.

Definition is_mside (is : list lag_intf) : bool := Nat.eqb (length is) 2.

Definition lag_link_run (start : Z) (reserved : string -> list Z) (st : lag_state) (l : lag_link) : lag_state * list lag_event * option lag_error :=
  match lag_side start reserved (is_mside (lk_a l)) st (lk_ifindex l) (lk_a l) with
  | (st', evs, Some e) => (st', evs, Some e)
  | (st', evs, None) =>
      match lag_side start reserved (is_mside (lk_b l)) st' (lk_ifindex l) (lk_b l) with
      | (st'', evs', e) => (st'', evs ++ evs', e)
      end
  end.

(* lag.py:413-415: all LAG links; an exhausted allocator is fatal *)
Fixpoint lag_run (start : Z) (reserved : string -> list Z) (st : lag_state) (ls : list lag_link) : lag_state * list lag_event * list lag_error :=
  match ls with
  | [] => (st, [], [])
  | l :: r =>
      match lag_link_run start reserved st l with
      | (st', evs, Some (LagIds e)) => (st', evs, [LagIds e])
      | (st', evs, oe) =>
          match lag_run start reserved st' r with
          | (st'', evs', es) => (st'', evs ++ evs', match oe with Some e => e :: es | None => es end)
          end
      end
  end.

(* lag.py:18-24 populate_lag_id_set: the allocator excludes indices configured on links *)
Definition lag_init (start : Z) (ls : list lag_link) : lag_state :=
  mk_ls [] (set_id_counter start 100 (extend_id_set (flat_map (fun l => match lk_ifindex l with Some x => [x] | None => [] end) ls) empty_idvar)).

(* ---- MLAG peers ---- *)

(* lag.py:332-336: own address and peer address in network [net] (a number), node ids [self_id] and [peer_id] *)
Definition mlag_addresses (net self_id peer_id : Z) : Z * Z :=
  let id := if self_id <? peer_id then 0 else 1 in (net + id, net + (1 - id)).

(* lag.py:347-350: virtual MAC address of an MLAG group *)
Definition mlag_mac (base peergroup : Z) : Z := base + peergroup mod 65536.
