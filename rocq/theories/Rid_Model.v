(* Model of router ids: netsim/modules/_routing.py. Definitions only. *)
From Coq Require Import String Ascii ZArith Bool List.
From Verif Require Import Base Text_Model Types_Model Pool_Model.
Import ListNotations.
Open Scope Z_scope.
Local Open Scope string_scope.
Local Open Scope list_scope.

(* A node as seen by router_id for one or more routing protocols: id, router_id attribute, the IPv4
   address of the loopback interface and the router_id attributes of protocols.
   Simplifications: router_id attributes are text (modules/ospf.yml, bgp.yml ...: type ipv4, use id; the
   validation turns integers into text and rejects IPv6 addresses, which ip_address would accept); the
   IPv4 address of a loopback interface is text. *)
Record rnode := mk_rnode {
  rn_id : nat;
  rn_rid : option string;
  rn_lb : option string;
  rn_proto : dict string }.

Inductive rid_error :=
| RidBadProto (proto : string)           (* not an IPv4 address *)
| RidBadNode
| RidNoPool                              (* pool missing, exhausted or without IPv4 prefix *)
| RidCrash.                              (* uncaught exception *)

(* utils/routing.py:21-22 get_address *)
Definition get_address (s : string) : option string :=
  match parse_ipv4 s with Some n => Some (ipv4_str n) | None => None end.

(* utils/routing.py:18-19 get_intf_address: the address part of address/prefix-length *)
Definition get_intf_address (s : string) : option string :=
  match split "/"%char s with
  | [a] => get_address a
  | [a; l] => match parse_plen l with Some _ => get_address a | None => None end
  | _ => None
  end.

(* _routing.py:187-211 get_router_id_prefix: IPv4 part of the router_id pool; [None] pool: not defined or
   without IPv4 prefix. addressing.get calls get_pool_prefix for the single pool in the list. *)
Definition get_router_id_prefix (use_id : bool) (id : nat) (p : option pool) : option network * option pool :=
  match p with
  | None => (None, None)
  | Some q => let (x, q') := get_pool_prefix 32 (if use_id then PNth id else PNext) q in (x, Some q')
  end.

Definition set_proto (proto rid : string) (n : rnode) : rnode :=
  mk_rnode (rn_id n) (rn_rid n) (rn_lb n) (dset proto rid (rn_proto n)).

(* _routing.py:216-249 router_id *)
Definition router_id (proto : string) (n : rnode) (p : option pool) : rnode * option pool * list rid_error :=
  match dget proto (rn_proto n) with
  | Some s =>
      match get_address s with
      | Some a => (set_proto proto a n, p, [])
      | None => (n, p, [RidBadProto proto])
      end
  | None =>
      match rn_rid n with
      | Some s =>
          match get_address s with
          | Some a => (mk_rnode (rn_id n) (Some a) (rn_lb n) (dset proto a (rn_proto n)), p, [])
          | None => (n, p, [RidBadNode])
          end
      | None =>
          match rn_lb n with
          | Some s =>
              match get_intf_address s with
              | Some a => (set_proto proto a n, p, [])
              | None => (n, p, [RidCrash])
              end
          | None =>
              match get_router_id_prefix true (rn_id n) p with
              | (Some x, p') =>
                  let a := ipv4_str (net_addr x) in
                  (mk_rnode (rn_id n) (Some a) (rn_lb n) (dset proto a (rn_proto n)), p', [])
              | (None, p') => (n, p', [RidNoPool])
              end
          end
      end
  end.

(* the calls made by the routing protocol modules: (node, protocol) in any order *)
Fixpoint router_ids (calls : list (string * string)) (nodes : dict rnode) (p : option pool)
  : dict rnode * option pool * list rid_error :=
  match calls with
  | [] => (nodes, p, [])
  | (k, proto) :: r =>
      match dget k nodes with
      | None => router_ids r nodes p
      | Some n =>
          match router_id proto n p with
          | (n', p', e) =>
              match router_ids r (dset k n' nodes) p' with
              | (ns, p'', e') => (ns, p'', e ++ e')
              end
          end
      end
  end.

(* ---- unique router ids of VRF instances ---- *)

Definition opt_s_eqb (a b : option string) : bool :=
  match a, b with
  | Some x, Some y => String.eqb x y
  | None, None => true
  | _, _ => false
  end.

Definition mem_os (x : option string) (l : list (option string)) : bool := existsb (opt_s_eqb x) l.

Definition some_list (l : list (option string)) : list string :=
  flat_map (fun x => match x with Some s => [s] | None => [] end) l.

(* _routing.py:473-479: the loop taking ids from the pool until one is not in the black list. [fuel] bounds the
   number of iterations; None: out of fuel. *)
Fixpoint next_rid (fuel : nat) (black : list string) (p : option pool) : option (option string * option pool) :=
  match fuel with
  | O => None
  | S f =>
      match get_router_id_prefix false 0 p with
      | (None, p') => Some (None, p')
      | (Some x, p') =>
          let a := ipv4_str (net_addr x) in
          if memS a black then next_rid f black p' else Some (Some a, p')
      end
  end.

(* the number of prefixes left in the pool, and one more *)
Definition rid_fuel (p : option pool) : nat :=
  match p with
  | None => 1%nat
  | Some q => S (Z.to_nat (gen_count (p_gen q) - g_pos (p_gen q)))
  end.

(* A VRF of the node: name and, when the protocol runs in the VRF, its router id *)
Definition vrf_rid := (string * option (option string))%type.

Definition cur_rids (vs : list vrf_rid) : list (option string) :=
  flat_map (fun v => match snd v with Some r => [r] | None => [] end) vs.

Inductive rid_warning :=
| RidChanged (vrf : string) (old : option string) (new : string)
| RidNotChanged (vrf : string).

(* _routing.py:453-493 get_unique_router_ids, with get_router_id_blacklist (435-443). [others]: router ids of the
   protocol in all other nodes and their VRFs, and of the global instance of this node. [done]: VRFs already
   processed (in the current state), the black list is built from the current state of all VRFs whenever it
   is empty. None: out of fuel. *)
Fixpoint unique_rids (others : list (option string)) (done todo : list vrf_rid) (rids : list (option string))
    (black : list string) (p : option pool) : option (list vrf_rid * option pool * list rid_warning) :=
  match todo with
  | [] => Some (done, p, [])
  | (v, None) :: r => unique_rids others (done ++ [(v, None)]) r rids black p
  | (v, Some rid) :: r =>
      if negb (mem_os rid rids) then unique_rids others (done ++ [(v, Some rid)]) r (rids ++ [rid]) black p
      else
        let black' := match black with [] => some_list (others ++ cur_rids (done ++ todo)) | _ => black end in
        match next_rid (rid_fuel p) black' p with
        | None => None
        | Some (Some a, p') =>
            match unique_rids others (done ++ [(v, Some (Some a))]) r rids black' p' with
            | Some (vs, p'', w) => Some (vs, p'', RidChanged v rid a :: w)
            | None => None
            end
        | Some (None, p') =>
            match unique_rids others (done ++ [(v, Some rid)]) r rids black' p' with
            | Some (vs, p'', w) => Some (vs, p'', RidNotChanged v :: w)
            | None => None
            end
        end
  end.

(* [own]: the router id of the global instance when the protocol runs in the global routing table *)
Definition get_unique_router_ids (own : option (option string)) (others : list (option string)) (vs : list vrf_rid)
    (p : option pool) : option (list vrf_rid * option pool * list rid_warning) :=
  unique_rids (match own with Some r => others ++ [r] | None => others end) [] vs
              (match own with Some r => [r] | None => [] end) [] p.
