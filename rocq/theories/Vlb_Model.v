(* Model of netsim/modules/vrf.py, node_post_transform: VRF address families, the need for the VRF module, route leaking and
   VRF loopbacks. Definitions only. *)
From Coq Require Import String Ascii ZArith Bool List.
From Verif Require Import Base Box_Model.
From Verif Require Intf_Model.
Import ListNotations.
Local Open Scope string_scope.
Local Open Scope list_scope.

Definition or_val (a b : option val) : option val :=
  match a with
  | Some v => if truthy v then a else b
  | None => b
  end.

(* an interface: VRF, has the keys ipv4 and ipv6 *)
Record pintf := mk_pi { pi_vrf : option string; pi_v4 : bool; pi_v6 : bool }.
(* a VRF: usable RD, address families, loopback *)
Record pvrf := mk_pv { pv_rd : bool; pv_af : dict val; pv_loop : option val }.

Definition set_af (b : bool) (k : string) (d : dict val) : dict val := if b then dset k (VBool true) d else d.

(* modules/vrf.py:491-505 VRF.node_post_transform: address families of the node, VRFs, and VRFs without a usable RD.
   A VRF that does not exist is created when it is read. *)
Definition af_step (s : dict val * dict pvrf * list string) (i : pintf) : dict val * dict pvrf * list string :=
  let '(naf, vrfs, errs) := s in
  match pi_vrf i with
  | None => s
  | Some x =>
      match dget x vrfs with
      | None => (naf, dset x (mk_pv false [] None) vrfs, errs ++ [x])
      | Some v =>
          if pv_rd v then
            (set_af (pi_v6 i) "vpnv6" (set_af (pi_v4 i) "vpnv4" naf),
             dset x (mk_pv (pv_rd v) (set_af (pi_v6 i) "ipv6" (set_af (pi_v4 i) "ipv4" (pv_af v))) (pv_loop v)) vrfs, errs)
          else (naf, vrfs, errs ++ [x])
      end
  end.

Definition vrf_af (naf : dict val) (vrfs : dict pvrf) (l : list pintf) : dict val * dict pvrf * list string :=
  fold_left af_step l (naf, vrfs, []).

(* modules/vrf.py:489, 493, 507-510 VRF.node_post_transform *)
Definition vrf_count (node_loop : option val) (vrfs : dict pvrf) (l : list pintf) : nat :=
  length (filter (fun i => match pi_vrf i with Some _ => true | None => false end) l) +
  length (filter (fun x => match pv_loop (snd x) with Some _ => true | None => match node_loop with Some v => truthy v | None => false end end) vrfs).

(* modules/vrf.py:517-528 VRF.node_post_transform: a warning; the VRF module is removed *)
Definition vrf_unused (keep : bool) (node_loop : option val) (vrfs : dict pvrf) (l : list pintf) : bool * bool :=
  if (vrf_count node_loop vrfs l =? 0)%nat then (true, negb keep) else (false, false).

(* a VRF: RD, import and export route targets *)
Record kvrf := mk_kv { kv_rd : string; kv_import : list string; kv_export : list string }.

Definition list_eqb (a b : list string) : bool := if list_eq_dec string_dec a b then true else false.

(* modules/vrf.py:282-284 validate_vrf_route_leaking *)
Definition leaks (v : kvrf) : bool :=
  let other l := match l with [] => false | _ => negb (list_eqb l [kv_rd v]) end in
  other (kv_import v) || other (kv_export v).

Definition no_as (a : option Z) : bool := match a with Some z => (z =? 0)%Z | None => true end.

(* modules/vrf.py:280-293 validate_vrf_route_leaking; bgp.as and vrf.as of the node, names of VRFs with errors *)
Definition leak_step (vas : option Z) (s : option Z * list string) (x : string * kvrf) : option Z * list string :=
  if leaks (snd x) && no_as (fst s) then (if no_as vas then (fst s, snd s ++ [fst x]) else (vas, snd s)) else s.
Definition validate_leaking (bas vas : option Z) (vrfs : dict kvrf) : option Z * list string := fold_left (leak_step vas) vrfs (bas, []).

(* IPv4 and IPv6 prefixes of a loopback *)
Definition laddr := (option string * option string)%type.
(* an interface: VRF, type, ifindex, name, addresses, parent interface with its address, OSPF area *)
Record lbif := mk_lb { f_vrf : option string; f_type : option string; f_index : Z; f_name : string;
                       f_ipv4 : option val; f_ipv6 : option val; f_parent : option (string * val); f_area : option val }.
(* a VRF: loopback, OSPF area, address families, networks, loopback_address *)
Record lvrf := mk_lv { v_loop : option val; v_area : option val; v_af : dict val; v_nets : list laddr; v_lb : option laddr }.

Section Loopbacks.
Variable start : Z.                                        (* the first index of loopback interfaces, with the offset of the type *)
Variable fmt : Z -> string.                                (* interface name with an index *)
Variables node_loop node_area : option val.                (* vrf.loopback and ospf.area of the node or the topology *)
Variable parse : val -> laddr.                             (* addressing.parse_prefix *)
Variable pool : nat -> laddr.                              (* prefixes allocated from the vrf_loopback pool *)
Variable ip6 : string -> string.                           (* the first address of an IPv6 prefix *)

Definition is_loop (i : lbif) : bool := match f_type i with Some t => String.eqb t "loopback" | None => false end.

(* augment/links.py:204-224 get_unique_ifindex for loopbacks; the flag - an error *)
Definition loop_index (l : list lbif) : Z * bool :=
  match Intf_Model.ifindex_loop (Z.to_nat 1000) start (map f_index (filter is_loop l)) with
  | Some i => (i, false)
  | None => (start + Z.of_nat (length l) + 1, true)%Z
  end.

(* modules/vrf.py:297-305 fix_vrf_unnumbered *)
Definition fix_unnumbered (vrf ifname : string) (a : val) (i : lbif) : lbif :=
  match f_vrf i, f_ipv4 i with
  | Some x, Some (VBool true) =>
      if String.eqb x vrf then mk_lb (f_vrf i) (f_type i) (f_index i) (f_name i) (f_ipv4 i) (f_ipv6 i) (Some (ifname, a)) (f_area i) else i
  | _, _ => i
  end.

(* modules/vrf.py:350-356 vrf_loopbacks *)
Definition host_addr (a : laddr) : laddr := (fst a, match snd a with Some s => Some (ip6 s) | None => None end).
Definition text (a : option string) : option val := match a with Some s => Some (VStr s) | None => None end.

(* interfaces, number of prefixes allocated, number of errors, VRFs *)
Record lbstate := mk_ls { ls_ifs : list lbif; ls_pool : nat; ls_err : nat; ls_vrfs : dict lvrf }.

(* modules/vrf.py:318-368 vrf_loopbacks: one VRF *)
Definition loopback_step (s : lbstate) (x : string * lvrf) : lbstate :=
  let v := snd x in
  match or_val (v_loop v) node_loop with
  | None => mk_ls (ls_ifs s) (ls_pool s) (ls_err s) (ls_vrfs s ++ [x])
  | Some lb =>
    if truthy lb then
      let (idx, bad) := loop_index (ls_ifs s) in
      let err := if bad then S (ls_err s) else ls_err s in
      let '(a, k) := match lb with VBool _ => (pool (ls_pool s), S (ls_pool s)) | _ => (parse lb, ls_pool s) end in
      match a with
      | (None, None) => mk_ls (ls_ifs s) k err (ls_vrfs s ++ [x])
      | _ =>
        let h := host_addr a in
        let area := or_val (v_area v) node_area in
        let i := mk_lb (Some (fst x)) (Some "loopback") idx (fmt (idx - 10000)%Z) (text (fst h)) (text (snd h)) None
                       (match area with Some r => if truthy r then area else None | None => None end) in
        let af := set_af (match snd h with Some _ => true | None => false end) "ipv6"
                         (set_af (match fst h with Some _ => true | None => false end) "ipv4" (v_af v)) in
        mk_ls (match fst h with Some s4 => map (fix_unnumbered (fst x) (f_name i) (VStr s4)) (ls_ifs s) | None => ls_ifs s end ++ [i])
              k err (ls_vrfs s ++ [(fst x, mk_lv (v_loop v) (v_area v) af (v_nets v ++ [h]) (Some h))])
      end
    else mk_ls (ls_ifs s) (ls_pool s) (ls_err s) (ls_vrfs s ++ [x])
  end.

(* modules/vrf.py:307-370 vrf_loopbacks *)
Definition vrf_loopbacks (ifs : list lbif) (vrfs : dict lvrf) : lbstate := fold_left loopback_step vrfs (mk_ls ifs 0 0 []).
End Loopbacks.
