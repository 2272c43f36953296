(* Model of management addresses (netsim/augment/nodes.py) and forwarded ports
   (netsim/providers/__init__.py). Definitions only. *)
From Coq Require Import String Ascii ZArith Bool List.
From Verif Require Import Base Types_Model.
Import ListNotations.
Open Scope Z_scope.

(* The mgmt address pool after augment/addressing.py:143-174: prefixes (first address, length), start offset
   (zero: missing), octets of the MAC address *)
Record mgmt_pool := mk_mpool {
  mp_v4 : option (Z * Z);
  mp_v6 : option (Z * Z);
  mp_start : Z;
  mp_mac : option (list Z) }.

(* node.mgmt. Simplification: a configured MAC address is valid and already in the format used by netlab
   (nodes.py:118-121). *)
Record mgmt := mk_mgmt { mg_v4 : option string; mg_v6 : option string; mg_mac : option string }.

Inductive mgmt_error :=
| MgmtNoPool          (* nodes.py:136-140 *)
| MgmtNoStart         (* nodes.py:147-151, fatal *)
| MgmtRange           (* nodes.py:155-159 *)
| MgmtNone.           (* nodes.py:161-165 *)

(* netaddr.EUI.format(mac_unix_expanded): two lower-case hexadecimal digits per octet *)
Definition hex_char (n : Z) : ascii := ascii_of_nat (Z.to_nat (if n <? 10 then 48 + n else 87 + n)).
Definition hex_octet (n : Z) : string := String (hex_char (n / 16)) (String (hex_char (n mod 16)) EmptyString).
Fixpoint mac_text (l : list Z) : string :=
  match l with
  | [] => EmptyString
  | [x] => hex_octet x
  | x :: r => (hex_octet x ++ String ":" (mac_text r))%string
  end.

(* nodes.py:128 addrs.mac_eui[3] = node.id. The pool object is changed in place; the other octets stay the same, so
   the result depends on the node id only. *)
Definition set_octet3 (l : list Z) (x : Z) : list Z :=
  match l with
  | a :: b :: c :: _ :: r => a :: b :: c :: x :: r
  | _ => l
  end.

(* network[index] of Python ipaddress networks for index >= 0; [bits] is the address length *)
Definition net_index (bits : Z) (net : Z * Z) (i : Z) : option Z :=
  if i <? 2 ^ (bits - snd net) then Some (fst net + i) else None.

Section Text6.
(* str(ipaddress.IPv6Address(n)) *)
Variable str6 : Z -> string.

(* nodes.py:142-159: address of one family *)
Definition mgmt_af (bits : Z) (str : Z -> string) (pfx : option (Z * Z)) (start id : Z) : option string * list mgmt_error :=
  match pfx with
  | None => (None, [])
  | Some net => if start =? 0 then (None, [MgmtNoStart])
                else match net_index bits net (id + start) with
                     | Some a => (Some (str a), [])
                     | None => (None, [MgmtRange])
                     end
  end.

(* nodes.py:118-165 augment_mgmt_if without the interface name *)
Definition augment_mgmt (pool : option mgmt_pool) (id : Z) (m : mgmt) : mgmt * list mgmt_error :=
  let mac := match mg_mac m with
             | Some x => Some x
             | None => match pool with
                       | Some p => match mp_mac p with Some o => Some (mac_text (set_octet3 o id)) | None => None end
                       | None => None
                       end
             end in
  match mg_v4 m, mg_v6 m with
  | None, None =>
      match pool with
      | None => (mk_mgmt None None mac, [MgmtNoPool])
      | Some p =>
          let (v4, e4) := mgmt_af 32 ipv4_str (mp_v4 p) (mp_start p) id in
          let (v6, e6) := mgmt_af 128 str6 (mp_v6 p) (mp_start p) id in
          (mk_mgmt v4 v6 mac, e4 ++ e6 ++ match v4, v6 with None, None => [MgmtNone] | _, _ => [] end)
      end
  | v4, v6 => (mk_mgmt v4 v6 mac, [])
  end.
End Text6.

(* nodes.py:171-185 check_duplicate_mgmt_addr, one attribute: pairs of nodes with the same value *)
Fixpoint dup_addr (used : dict string) (l : list (string * option string)) : list (string * string) :=
  match l with
  | [] => []
  | (n, None) :: r => dup_addr used r
  | (n, Some a) :: r => match dget a used with
                        | Some n' => (n, n') :: dup_addr used r
                        | None => dup_addr (dset a n used) r
                        end
  end.

Definition check_duplicate_mgmt_addr (nodes : dict mgmt) : list (string * string) :=
  dup_addr [] (map (fun nm => (fst nm, mg_v4 (snd nm))) nodes)
  ++ dup_addr [] (map (fun nm => (fst nm, mg_v6 (snd nm))) nodes)
  ++ dup_addr [] (map (fun nm => (fst nm, mg_mac (snd nm))) nodes).

(* providers/__init__.py:363-377 get_forwarded_ports: [host port, device port] pairs *)
Definition get_forwarded_ports (fmap pmap : dict Z) (id : Z) : list (Z * Z) :=
  flat_map (fun f => match dget (fst f) pmap with Some p => [(snd f + id, p)] | None => [] end) fmap.
