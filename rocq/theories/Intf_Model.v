(* Model of node interface creation: netsim/augment/links.py. Definitions only. *)
From Coq Require Import String ZArith Bool List.
From Verif Require Import Base.
Import ListNotations.
Open Scope Z_scope.

(* links.py:18-19 VIRTUAL_INTERFACE_TYPES *)
Definition virtual_types : list string := ["loopback"; "tunnel"; "lag"; "svi"]%string.

(* The part of node.interfaces[i] used by index allocation and by the neighbor lists.
   [ni_type = None]: no 'type' key (intf.type is then an empty Box, equal to no string).
   [ni_v4]/[ni_v6]: address values as text, absent when the key is missing. *)
Record nif := mk_nif {
  ni_type : option string;
  ni_ifindex : Z;
  ni_ifname : string;
  ni_v4 : option string;
  ni_v6 : option string
}.

Definition is_virtual (t : option string) : bool :=
  match t with Some s => memS s virtual_types | None => false end.

(* links.py:211-213: the interfaces considered when looking for a free index *)
Definition considered (iftype : option string) (t : option string) : bool :=
  match iftype with
  | Some x => match t with Some y => String.eqb x y | None => false end
  | None => negb (is_virtual t)
  end.

Definition idx_list (iftype : option string) (l : list nif) : list Z :=
  map ni_ifindex (filter (fun i => considered iftype (ni_type i)) l).

(* links.py:214-218 the while loop; [n] is stop - ifindex *)
Fixpoint ifindex_loop (n : nat) (idx : Z) (used : list Z) : option Z :=
  match n with
  | O => None
  | S m => if negb (memZ idx used) then Some idx else ifindex_loop m (idx + 1) used
  end.

(* links.py:204-224 get_unique_ifindex with the default stop = start + 1000: the index and
   whether an error was logged *)
Definition get_unique_ifindex (l : list nif) (iftype : option string) (start : Z) : Z * bool :=
  match ifindex_loop (Z.to_nat 1000) start (idx_list iftype l) with
  | Some i => (i, false)
  | None => (start + Z.of_nat (length l) + 1, true)
  end.

(* list.index *)
Fixpoint pos_of (s : string) (l : list string) (k : Z) : Z :=
  match l with
  | [] => k
  | x :: r => if String.eqb s x then k else pos_of s r (k + 1)
  end.

(* Device parameters: ifindex_offset (None when missing), loopback_offset and the name
   templates. Names are produced by strings.eval_format; here a function of the reduced index. *)
Record dev := mk_dev {
  d_offset : option Z;
  d_lb_offset : option Z;
  d_name : Z -> string;                 (* interface_name *)
  d_vname : string -> Z -> string       (* {type}_interface_name *)
}.

(* links.py:235-239 *)
Definition regular_start (d : dev) : Z := match d_offset d with Some o => o | None => 1 end.

(* links.py:271-273; Python parses the expression as (offset or 1) if loopback else 0 *)
Definition virtual_offset (d : dev) (t : string) : Z :=
  if String.eqb t "loopback" then
    match d_lb_offset d with
    | Some o => if o =? 0 then 1 else o
    | None => 1
    end
  else 0.

(* links.py:277 *)
Definition devtype_offset (t : string) : Z := (pos_of t virtual_types 0 + 1) * 10000.

(* A request to add an interface: type, user-supplied ifindex and ifname, addresses. *)
Record request := mk_req {
  r_type : option string;
  r_ifindex : option Z;
  r_ifname : option string;
  r_v4 : option string;
  r_v6 : option string
}.

(* links.py:235-342 create_regular_interface, create_virtual_interface, add_node_interface.
   Returns the new interface and whether an error was logged. Simplifications: the device has
   an interface name template for every interface type, provider data and MTU are left out,
   an address of False is represented by None (links.py:317-319 deletes it). *)
Definition make_interface (d : dev) (l : list nif) (r : request) : nif * bool :=
  match r_type r with
  | Some t =>
      if memS t virtual_types then
        let (idx, err) := match r_ifindex r with
                          | Some i => (i, false)
                          | None => get_unique_ifindex l (Some t) (virtual_offset d t + devtype_offset t)
                          end in
        let nm := match r_ifname r with Some s => s | None => d_vname d t (idx - devtype_offset t) end in
        (mk_nif (r_type r) idx nm (r_v4 r) (r_v6 r), err)
      else
        let (idx, err) := match r_ifindex r with
                          | Some i => (i, i <? regular_start d)
                          | None => get_unique_ifindex l None (regular_start d)
                          end in
        let nm := match r_ifname r with Some s => s | None => d_name d idx end in
        (mk_nif (r_type r) idx nm (r_v4 r) (r_v6 r), err)
  | None =>
      let (idx, err) := match r_ifindex r with
                        | Some i => (i, i <? regular_start d)
                        | None => get_unique_ifindex l None (regular_start d)
                        end in
      let nm := match r_ifname r with Some s => s | None => d_name d idx end in
      (mk_nif None idx nm (r_v4 r) (r_v6 r), err)
  end.

(* a history of additions to one node: interfaces and number of errors *)
Fixpoint add_interfaces (d : dev) (rs : list request) (l : list nif) : list nif * nat :=
  match rs with
  | [] => (l, O)
  | r :: t =>
      let (i, err) := make_interface d l r in
      let (l', n) := add_interfaces d t (l ++ [i]) in
      (l', ((if err then 1 else 0) + n)%nat)
  end.

(* ---- creation of the interfaces of one link ---- *)

(* node name -> (device, interfaces) *)
Definition nodes := dict (dev * list nif).

(* links.py:838-857 first phase of create_node_interfaces: one interface per link interface,
   appended to its node; returns the new interfaces (node name and data) in link order and the
   number of errors logged.
   [None]: a link interface refers to an unknown node (KeyError; excluded by link validation). *)
Fixpoint create_phase1 (lk : list (string * request)) (ns : nodes)
  : option (list (string * nif) * nodes * nat) :=
  match lk with
  | [] => Some ([], ns, O)
  | (nd, r) :: t =>
      match dget nd ns with
      | None => None
      | Some (d, l) =>
          let (i, err) := make_interface d l r in
          match create_phase1 t (dset nd (d, l ++ [i]) ns) with
          | Some (is, ns', n) => Some ((nd, i) :: is, ns', ((if err then 1 else 0) + n)%nat)
          | None => None
          end
      end
  end.

(* Neighbor data: links.py:871-886. Simplification: module data is left out. *)
Record ngh := mk_ngh { n_node : string; n_ifname : string; n_v4 : option string; n_v6 : option string }.

Definition to_ngh (e : string * nif) : ngh :=
  mk_ngh (fst e) (ni_ifname (snd e)) (ni_v4 (snd e)) (ni_v6 (snd e)).

(* links.py:867-887 inner loop for the interface number [me]; "remote_if is node_if" compares
   object identity, i.e. the position in the list *)
Fixpoint ngh_loop (me pos : nat) (all : list (string * nif)) : list ngh :=
  match all with
  | [] => []
  | e :: r => if Nat.eqb pos me then ngh_loop me (S pos) r else to_ngh e :: ngh_loop me (S pos) r
  end.

(* links.py:863-887 outer loop: one neighbor list per interface *)
Definition create_phase2 (is : list (string * nif)) : list (list ngh) :=
  map (fun me => ngh_loop me 0 is) (seq 0 (length is)).

(* ---- link indices ---- *)

(* links.py:1131-1136 set_linkindex *)
Fixpoint set_linkindex {A} (idx : Z) (l : list A) : list (A * Z) :=
  match l with
  | [] => []
  | x :: r => (x, idx) :: set_linkindex (idx + 1) r
  end.

(* links.py:1105-1110 get_next_linkindex *)
Definition get_next_linkindex {A} (start : Z) (l : list (A * Z)) : Z :=
  match rev l with
  | [] => start
  | (_, i) :: _ => i + 1
  end.

(* the pattern of vlan.py:593, vrf.py:414, components.py:120: append a link *)
Definition append_link {A} (start : Z) (l : list (A * Z)) (x : A) : list (A * Z) :=
  l ++ [(x, get_next_linkindex start l)].

(* links.py:1112-1116 get_link_by_index *)
Fixpoint get_link_by_index {A} (l : list (A * Z)) (idx : Z) : option A :=
  match l with
  | [] => None
  | (x, i) :: r => if i =? idx then Some x else get_link_by_index r idx
  end.

(* links.py:971-976 set_link_bridge_name for a link without a bridge attribute: the first ten
   characters of the topology name, an underscore and the decimal link index.
   [dec] is the decimal notation of a non-negative integer. *)
Definition digit (n : nat) : Ascii.ascii := Ascii.ascii_of_nat (48 + n).

Fixpoint dec_loop (fuel : nat) (n : nat) (acc : string) : string :=
  match fuel with
  | O => acc
  | S f =>
      let acc' := String (digit (Nat.modulo n 10)) acc in
      if Nat.ltb n 10 then acc' else dec_loop f (Nat.div n 10) acc'
  end.

Definition dec (n : nat) : string := dec_loop (S n) n EmptyString.

Definition bridge_name (name : string) (linkindex : nat) : string :=
  (substring 0 10 name ++ "_" ++ dec linkindex)%string.

(* links.py:940-947 get_default_link_type *)
Inductive link_type := Lan | P2p | Stub | Loopback | OtherType.

Definition get_default_link_type (node_count host_count : nat) : link_type :=
  if Nat.ltb 2 node_count then Lan
  else if negb (Nat.eqb host_count 0) then Lan
  else if Nat.eqb node_count 2 then P2p else Stub.

(* links.py:982-1025 check_link_type *)
Definition check_link_type (t : link_type) (node_count : nat) : bool :=
  if Nat.eqb node_count 0 then false
  else match t with
       | Stub => Nat.leb node_count 1
       | P2p => Nat.eqb node_count 2
       | Loopback => Nat.eqb node_count 1
       | _ => true
       end.

(* nodes.py:535-549 check_unique_ifnames: indices of the interfaces for which the overlap
   error is logged *)
Fixpoint unique_ifnames (seen : list string) (l : list nif) : list Z :=
  match l with
  | [] => []
  | i :: r => if memS (ni_ifname i) seen then ni_ifindex i :: unique_ifnames seen r
              else unique_ifnames (ni_ifname i :: seen) r
  end.
