(* Model of interface address assignment: netsim/augment/links.py. Definitions only. *)
From Coq Require Import String ZArith Bool List.
From Verif Require Import Base Pool_Model.
Import ListNotations.
Open Scope Z_scope.

(* Value of intf.ipv4 / intf.ipv6. Simplification: textual addresses are represented by the
   integers they denote (unparseable text is outside the model). [AStatic a None] is an address
   given without a prefix length. *)
Inductive aval :=
| ANone                              (* attribute missing *)
| ABool (b : bool)                   (* unnumbered (True) or no address (False) *)
| AInt (i : Z)                       (* host part given as an integer *)
| AStatic (a : Z) (plen : option Z)  (* static address given by the user *)
| AAddr (a : Z) (plen : Z).          (* final address *)

(* One element of link.interfaces; if_pos identifies the element (Python object identity). *)
Record intf := mk_intf { if_pos : nat; if_node : string; if_addr : aval }.

Inductive policy := PUnnumbered | PP2p | PSequential | PIdBased | PLoopback | PError.

(* The part of a link used by address assignment. [l_gwid] is get_gateway_id(link)
   (links.py:356-359): None when the link has no gateway dictionary or no id in it. *)
Record link := mk_link { l_p2p : bool; l_gwid : option Z; l_intfs : list intf }.

(* gwid = get_gateway_id(link) or 0, links.py:475 *)
Definition gwid0 (l : link) : Z := match l_gwid l with Some g => g | None => 0 end.

(* max([...]) over node ids; None is the ValueError raised on an empty list, links.py:493.
   Simplification: every interface belongs to a known node. *)
Definition max_id (ids : string -> Z) (l : link) : option Z :=
  match l_intfs l with
  | [] => None
  | i :: r => Some (fold_left Z.max (map (fun j => ids (if_node j)) r) (ids (if_node i)))
  end.

(* links.py:479-491 usable size of the prefix and the extra address for the gateway *)
Definition usable (w : Z) (p : network) (l : link) : Z * Z :=
  let size := net_size w p in
  let g := gwid0 l in
  if size >? 2 then
    let extra := if g >? 0 then 1 else 0 in
    let sub := if g <? 0 then Z.min (-2) (g - 1) else -2 in
    (size + sub, extra)
  else (size, 0).

(* links.py:471-502 get_prefix_IPAM_policy for a prefix that is a network *)
Definition ipam_policy (w : Z) (ids : string -> Z) (p : network) (l : link) : option policy :=
  let size := net_size w p in
  if l_p2p l && (gwid0 l =? 0) then
    Some (if size >? 1 then PP2p else PError)
  else if negb (size >? 2) && (size =? 2) && (Nat.eqb (length (l_intfs l)) 2) then Some PP2p
  else
    match max_id ids l with
    | None => None
    | Some mx =>
        let (psize, extra) := usable w p l in
        Some (if psize =? 1 then (if Nat.eqb (length (l_intfs l)) 1 then PLoopback else PError)
              else if mx <=? psize then PIdBased
              else if Z.of_nat (length (l_intfs l)) + extra <=? psize then PSequential
              else PError)
    end.

(* links.py:556-590 set_interface_address: success flag and the new value *)
Definition set_addr (w : Z) (p : network) (v : aval) (host : Z) : bool * aval :=
  let by_index h :=
    match nth_ip w p h with
    | Some a => (true, AAddr a (net_plen p))
    | None => (false, v)
    end in
  match v with
  | ABool b => (true, ABool b)
  | AStatic a (Some pl) => (true, AAddr a pl)
  | AStatic a None => (true, AAddr a (net_plen p))
  | AAddr a pl => (true, AAddr a pl)
  | AInt i => by_index i
  | ANone => by_index host
  end.

Definition with_addr (i : intf) (v : aval) : intf := mk_intf (if_pos i) (if_node i) v.

(* links.py:616-625 IPAM_sequential; processes interfaces in link order *)
Fixpoint sequential_loop (w : Z) (p : network) (gw : option Z) (count start : Z) (l : list intf)
  : bool * list intf :=
  match l with
  | [] => (true, [])
  | i :: r =>
      let start' := match gw with
                    | Some g => if count + start =? g then start + 1 else start
                    | None => start end in
      let (ok, v) := set_addr w p (if_addr i) (count + start') in
      let (oks, vs) := sequential_loop w p gw (count + 1) start' r in
      (ok && oks, with_addr i v :: vs)
  end.

Definition start_of (w : Z) (p : network) : Z := if net_size w p >? 2 then 1 else 0.

Definition ipam_sequential (w : Z) (p : network) (l : link) : bool * list intf :=
  sequential_loop w p (l_gwid l) 0 (start_of w p) (l_intfs l).

(* sorted(link.interfaces, key=lambda intf: intf.node): stable sort by node name *)
Fixpoint insert_by_node (i : intf) (l : list intf) : list intf :=
  match l with
  | [] => [i]
  | j :: r => if String.leb (if_node i) (if_node j) then i :: l else j :: insert_by_node i r
  end.

Fixpoint sort_by_node (l : list intf) : list intf :=
  match l with
  | [] => []
  | i :: r => insert_by_node i (sort_by_node r)
  end.

(* links.py:627-633 IPAM_p2p; the result lists interfaces in processing (sorted) order *)
Definition ipam_p2p (w : Z) (p : network) (l : link) : bool * list intf :=
  sequential_loop w p None 0 (start_of w p) (sort_by_node (l_intfs l)).

(* links.py:635-640 IPAM_id_based *)
Fixpoint id_loop (w : Z) (ids : string -> Z) (p : network) (l : list intf) : bool * list intf :=
  match l with
  | [] => (true, [])
  | i :: r =>
      let (ok, v) := set_addr w p (if_addr i) (ids (if_node i)) in
      let (oks, vs) := id_loop w ids p r in
      (ok && oks, with_addr i v :: vs)
  end.

(* links.py:642-647 IPAM_loopback: the network address with a host prefix length *)
Definition ipam_loopback (w : Z) (p : network) (l : link) : bool * list intf :=
  (true, map (fun i => with_addr i (AAddr (net_addr p) w)) (l_intfs l)).

(* links.py:649-655, 729-731 dispatch. [PUnnumbered] and [PError] never reach this point for a
   network prefix; they return failure here. *)
Definition ipam_run (w : Z) (ids : string -> Z) (pol : policy) (p : network) (l : link)
  : bool * list intf :=
  match pol with
  | PSequential => ipam_sequential w p l
  | PP2p => ipam_p2p w p l
  | PIdBased => id_loop w ids p (l_intfs l)
  | PLoopback => ipam_loopback w p l
  | PUnnumbered | PError => (false, l_intfs l)
  end.

(* links.py:365-385 set_fhrp_gateway: the gateway address, if the link has a usable gateway id *)
Definition gateway_addr (w : Z) (p : network) (l : link) : option Z :=
  if gwid0 l =? 0 then None else nth_ip w p (gwid0 l).

(* links.py:508-551 check_interface_host_bits for one final address: true = no error.
   Simplification: the multicast test is left out. *)
Definition host_bits_ok (w : Z) (a plen : Z) : bool :=
  let size := 2 ^ (w - plen) in
  if size <=? 2 then true
  else let off := a mod size in negb (off =? 0) && negb (off =? size - 1).

(* links.py:1140-1163 check_duplicate_address, one address family. Addresses are strings
   (already formatted as addr/plen); [None] stands for a missing or boolean address.
   Returns the interfaces for which an error is logged, with the earlier owner. *)
Fixpoint dup_loop (seen : dict string) (l : list (string * option string))
  : list (string * string) :=
  match l with
  | [] => []
  | (nd, None) :: r => dup_loop seen r
  | (nd, Some a) :: r =>
      match dget a seen with
      | Some owner => (nd, owner) :: dup_loop seen r
      | None => dup_loop (dset a nd seen) r
      end
  end.

Definition check_duplicate_address (gw : option string) (l : list (string * option string))
  : list (string * string) :=
  dup_loop (match gw with Some g => [(g, "gateway"%string)] | None => [] end) l.
