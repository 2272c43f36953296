(* Model of the setup of address pools (netsim/augment/addressing.py), of the final cleanup of pools (netsim/augment/topology.py)
   and of the search paths (netsim/augment/config.py). Definitions only. *)
From Coq Require Import String Ascii ZArith Bool List.
From Verif Require Import Base Box_Model Dev_Model Mod_Model.
Import ListNotations.
Local Open Scope string_scope.
Local Open Scope list_scope.

Section Pools.

(* str(ipaddress.ip_network(s)); None: exception *)
Variable norm : string -> option string.
(* s % 0 *)
Variable pct0 : string -> string.

(* addressing.py:67-75 normalize_ip: value and reported texts *)
Definition normalize_ip (v : val) : val * list string :=
  match v with
  | VStr s => match norm s with Some t => (VStr t, []) | None => (VBool false, [s]) end
  | _ => (v, [])
  end.

(* addressing.py:81-86 one address family of a prefix *)
Definition normalize_af (st : dict val * list string) (af : string) : dict val * list string :=
  match dget af (fst st) with
  | None => st
  | Some x => if negb (truthy x) || dmem "unnumbered" (fst st) then (dpop af (fst st), snd st)
              else (dset af (fst (normalize_ip x)) (fst st), snd st ++ snd (normalize_ip x))
  end.

(* addressing.py:64-88 normalize_prefix *)
Definition normalize_prefix (v : val) : dict val * list string :=
  if negb (truthy v) then ([], [])
  else match v with
       | VDict d => fold_left normalize_af ["ipv4"; "ipv6"] (d, [])
       | _ => ([("ipv4", fst (normalize_ip v))], snd (normalize_ip v))
       end.

(* addressing.py:111-114 prefix length of a pool *)
Definition set_length (pool : string) (d : dict val) : dict val :=
  if dmem "ipv4" d && negb (dmem "prefix" d) then dset "prefix" (VInt (if contains "loopback" pool then 32 else 24)) d else d.

(* topology defaults: lan, lan_subnet, loopback, p2p, p2p_subnet; the default loopback is a text *)
Record old_defaults := OD { od_lan : option val; od_lan_subnet : option val; od_loopback : option string; od_p2p : option val; od_p2p_subnet : option val }.

Definition or_default (o : option val) (v : val) : val := match o with Some x => x | None => v end.

(* addressing.py:102-106 legacy pools *)
Definition legacy_pools (o : old_defaults) (addrs : dict val) : dict val :=
  [("lan", VDict ([("ipv4", or_default (od_lan o) (VStr "10.0.0.0/16")); ("prefix", or_default (od_lan_subnet o) (VInt 24))]
                  ++ match od_lan o with None => if dmem "lan" addrs then [] else [("start", VInt 1)] | Some _ => [] end));
   ("loopback", VDict [("ipv4", VStr (pct0 (match od_loopback o with Some s => s | None => "10.0.0.%d" end) ++ "/24")%string); ("prefix", VInt 32)]);
   ("p2p", VDict [("ipv4", or_default (od_p2p o) (VStr "10.2.0.0/16")); ("prefix", or_default (od_p2p_subnet o) (VInt 30))])].

(* addressing.py:97-117 setup_pools: pools and reported texts *)
Definition setup_pools (o : old_defaults) (addrs : dict val) : dict val * list string :=
  let pools := entries (merge (VDict (legacy_pools o addrs)) (VDict addrs)) in
  (map (fun p => (fst p, VDict (set_length (fst p) (fst (normalize_prefix (snd p)))))) pools,
   flat_map (fun p => snd (normalize_prefix (snd p))) pools).

End Pools.

(* topology.py:95-108 cleanup_topology: attributes of a pool that stay *)
Definition cleanup_pool (d : dict val) : dict val := filter (fun x => negb (contains "_pfx" (fst x) || contains "_eui" (fst x))) d.
Definition cleanup_topology (addrs : dict (dict val)) : dict (dict val) := map (fun p => (fst p, cleanup_pool (snd p))) addrs.

Section Paths.

(* utils/files.py:84-114 absolute_search_path, a function of the list of texts *)
Variable search : list string -> list string.

(* s.replace('\n','') *)
Fixpoint no_newlines (s : string) : string :=
  match s with
  | EmptyString => EmptyString
  | String c r => if Ascii.eqb c (ascii_of_nat 10) then no_newlines r else String c (no_newlines r)
  end.

(* texts of a list; None: another value, the method call fails *)
Fixpoint texts (l : list val) : option (list string) :=
  match l with
  | [] => Some []
  | VStr s :: r => match texts r with Some t => Some (s :: t) | None => None end
  | _ :: _ => None
  end.

Definition chars (s : string) : list string := map (fun c => String c EmptyString) (list_ascii_of_string s).
Definition vtexts (l : list string) : val := VList (map VStr l).

(* config.py:182 keys of file name lists *)
Definition file_key (k : string) : bool := prefix "files" k || prefix "tasks" k.

(* config.py:183 python iterates over lists, characters of texts and keys of dictionaries; None: not iterable *)
Definition file_names (v : val) : option val :=
  match v with
  | VList l => match texts l with Some t => Some (vtexts (map no_newlines t)) | None => None end
  | VStr s => Some (vtexts (map no_newlines (chars s)))
  | VDict d => Some (vtexts (map no_newlines (dkeys d)))
  | _ => None
  end.

(* config.py:180-191 make_paths_absolute; None: failure *)
Fixpoint absolute (v : val) : option val :=
  match v with
  | VDict d =>
      match (fix go (d : list (string * val)) : option (list (string * val)) :=
               match d with
               | [] => Some []
               | (k, x) :: r =>
                   match (if file_key k then file_names x else absolute x), go r with
                   | Some y, Some t => Some ((k, y) :: t)
                   | _, _ => None
                   end
               end) d with
      | Some t => Some (VDict t)
      | None => None
      end
  | VStr s => Some (vtexts (search [s]))
  | VList l => match texts l with Some t => Some (vtexts (search t)) | None => None end
  | _ => Some v
  end.
End Paths.
