(* Model of interior routing protocols: netsim/modules/_routing.py (interface roles, passive interfaces, network types,
   VRF instances, address families, removal of unused protocols), netsim/modules/bfd.py and the node transformations in
   ospf.py, isis.py, ripv2.py and eigrp.py. Definitions only.
   Simplifications: interface data are reduced to the attributes used here; an interface name stands for everything
   else; protocol data of an interface are False or a dictionary (modules/ospf.yml, isis.yml); router ids, route
   imports and default routes are modelled elsewhere or left out; strict BFD is left out. *)
From Coq Require Import String ZArith Bool List.
From Verif Require Import Base.
Import ListNotations.
Local Open Scope string_scope.
Local Open Scope list_scope.

(* an interface address: True/False or an address *)
Inductive iaddr := IBool (b : bool) | IAddr (s : string).

(* a bfd attribute: a flag or flags of address families *)
Inductive bfdval := BfdFlag (b : bool) | BfdAf (v4 v6 : option bool).

(* protocol data of an interface; an empty network type stands for any false value; [pd_other]: there are other attributes *)
Record pdata := mk_pd { pd_bfd : option bfdval; pd_passive : option bool; pd_ntype : option string; pd_other : bool }.
Definition pd_empty : pdata := mk_pd None None None false.
Definition pd_is_empty (d : pdata) : bool :=
  match pd_bfd d, pd_passive d, pd_ntype d, pd_other d with None, None, None, false => true | _, _, _, _ => false end.

Inductive pstate := PNone | PFalse | PSome (d : pdata).

Record igi := mk_igi {
  ii_name : string;
  ii_role : string;                     (* empty: no role *)
  ii_type : string;
  ii_v4 : option iaddr;
  ii_v6 : option iaddr;
  ii_dhcp4 : bool;                      (* 'ipv4' in dhcp.client *)
  ii_dhcp6 : bool;
  ii_vrf : option string;
  ii_ngbs : list string;
  ii_bfd_off : bool;                    (* 'bfd' in the interface with a false value *)
  ii_proto : pstate }.

Definition set_proto_data (i : igi) (p : pstate) : igi :=
  mk_igi (ii_name i) (ii_role i) (ii_type i) (ii_v4 i) (ii_v6 i) (ii_dhcp4 i) (ii_dhcp6 i) (ii_vrf i) (ii_ngbs i) (ii_bfd_off i) p.

(* intf[proto]: an empty dictionary is created when the attribute is missing *)
Definition proto_data (i : igi) : pdata := match ii_proto i with PSome d => d | _ => pd_empty end.
Definition in_proto (i : igi) : bool := match ii_proto i with PNone => false | _ => true end.

(* ---- bfd.py ---- *)

Definition bfd_truthy (b : bfdval) : bool :=
  match b with BfdFlag b => b | BfdAf None None => false | BfdAf _ _ => true end.

Definition set_bfd (d : pdata) (b : option bfdval) : pdata := mk_pd b (pd_passive d) (pd_ntype d) (pd_other d).

Definition close_proto (i : igi) (d : pdata) : igi := set_proto_data i (if pd_is_empty d then PNone else PSome d).

(* bfd.py:26-46: one interface; [f] is the flag of the node *)
Definition bfd_intf (f : bool) (i : igi) : igi :=
  match ii_proto i with
  | PFalse => i
  | _ =>
      let d := proto_data i in
      let b := match pd_bfd d with Some b => b | None => BfdFlag f end in
      close_proto i (set_bfd d (if ii_bfd_off i || negb (bfd_truthy b) then None else Some b))
  end.

(* bfd.py:16-49 bfd_link_state: the bfd attribute of the node and its interfaces. [on]: the node uses the bfd module *)
Definition bfd_link_state (on : bool) (nb : option bfdval) (is : list igi) : option bfdval * list igi :=
  match nb with
  | None => (None, is)
  | Some b => let f := (on && bfd_truthy b)%bool in
              ((if f then Some (BfdFlag true) else None), map (bfd_intf f) is)
  end.

(* the af attribute of routing protocols: names of address families and flags; None is missing *)
Definition afdict := list (string * bool).

Definition drop_af (i : igi) (b : bfdval) : bfdval :=
  match b with
  | BfdAf v4 v6 => BfdAf (match ii_v4 i with None => None | Some _ => v4 end) (match ii_v6 i with None => None | Some _ => v6 end)
  | x => x
  end.

(* bfd.py:70-96: one interface; [nb] is the transformed attribute of the node *)
Definition mbfd_intf (nb : bfdval) (i : igi) : igi :=
  match ii_proto i with
  | PFalse => i
  | _ =>
      let d := proto_data i in
      let b := match pd_bfd d with Some b => b | None => nb end in
      close_proto i (set_bfd d (
        if ii_bfd_off i || negb (bfd_truthy b) then None
        else let c := drop_af i (match b with BfdFlag _ => nb | x => x end) in
             if bfd_truthy c then Some c else None))
  end.

(* bfd.py:51-99 multiprotocol_bfd_link_state. Reading node[proto].af creates an empty attribute when it is missing
   (default_box), which is the third result. *)
Definition multiprotocol_bfd (on : bool) (nb : option bfdval) (af : option afdict) (is : list igi)
  : option bfdval * option afdict * list igi :=
  match nb with
  | None => (None, af, is)
  | Some b =>
      let b1 := if on then b else BfdFlag false in
      let a := match af with Some x => x | None => [] end in
      let '(b2, af2) :=
        match b1 with
        | BfdFlag true => (BfdAf (if dmem "ipv4" a then Some true else None) (if dmem "ipv6" a then Some true else None), Some a)
        | BfdFlag false => (BfdAf None None, af)
        | x => (x, af)
        end in
      ((if bfd_truthy b2 then Some b2 else None), af2, map (mbfd_intf b2) is)
  end.

(* ---- interfaces ---- *)

(* _routing.py:89-98 external *)
Definition external (i : igi) : bool :=
  String.eqb (ii_role i) "external" || match ii_proto i with PFalse => true | _ => false end.

(* _routing.py:107-118 is_true_stub with a protocol; [running] tells whether a node uses the module *)
Definition is_true_stub (running : string -> bool) (i : igi) : bool := forallb (fun n => negb (running n)) (ii_ngbs i).

(* _routing.py:134-168 passive: the flag *)
Definition passive_flag (running : string -> bool) (i : igi) : bool :=
  match pd_passive (proto_data i) with
  | Some b => b
  | None =>
      if String.eqb (ii_role i) "passive" || String.eqb (ii_role i) "external" || String.eqb (ii_type i) "stub" then true
      else if negb (String.eqb (ii_role i) "stub") then false
      else is_true_stub running i
  end.
Definition passive (running : string -> bool) (i : igi) : igi :=
  let d := proto_data i in
  set_proto_data i (PSome (mk_pd (pd_bfd d) (Some (passive_flag running i)) (pd_ntype d) (pd_other d))).

Inductive igp_error :=
| IgpNetType (intf : string)             (* ospf.py:106-108, isis.py:60-62 *)
| IgpPassive (intf : string)             (* _routing.py:142-148 *)
| IgpMultiaccess (intf : string)         (* ospf.py:29-34 *)
| IgpStubUnnum (intf : string)           (* ospf.py:35-40 *)
| IgpUnnumbered                          (* ospf.py:42-48 *)
| IgpBadAf (af : string)                 (* _routing.py:38-43 *)
| IgpAfUnsupported (af : string).        (* _routing.py:65-69 *)

(* _routing.py:76-85 network_type; the error is reported by the callers *)
Definition network_type (allowed : list string) (i : igi) : igi * list igp_error :=
  let d := proto_data i in
  let set t := set_proto_data i (PSome (mk_pd (pd_bfd d) (pd_passive d) t (pd_other d))) in
  match pd_ntype d with
  | Some EmptyString => (set None, [])
  | Some t => if memS t allowed then (i, []) else (i, [IgpNetType (ii_name i)])
  | None => if Nat.eqb (length (ii_ngbs i)) 1 then (set (Some "point-to-point"), []) else (i, [])
  end.

(* What the protocol modules do differently *)
Record igp_kind := mk_kind {
  k_types : option (list string);        (* network types; None: network_type is not called *)
  k_need_addr : bool;                    (* isis.py:55: interfaces without addresses are skipped *)
  k_passive_check : bool;                (* ripv2.py:51: device features are checked *)
  k_unnum_check : bool;                  (* ospf.py:111: ospf_unnumbered *)
  k_vrf_aware : bool }.
Definition k_ospf := mk_kind (Some ["point-to-point"; "point-to-multipoint"; "broadcast"; "non-broadcast"]) false false true true.
Definition k_isis := mk_kind (Some ["point-to-point"]) true false false true.
Definition k_ripv2 := mk_kind None false true false true.
Definition k_eigrp := mk_kind None false false false false.

Definition addr_truthy (a : option iaddr) : bool :=
  match a with Some (IBool b) => b | Some (IAddr EmptyString) => false | Some (IAddr _) => true | None => false end.

(* ospf.py:102-108, isis.py:54-62, ripv2.py:49-51, eigrp.py:12-14: one interface. [no_passive]: the device has
   features.proto.passive set to False *)
Definition igp_intf (k : igp_kind) (no_passive : bool) (running : string -> bool) (i : igi) : igi * list igp_error :=
  if external i || (k_need_addr k && negb (addr_truthy (ii_v4 i) || addr_truthy (ii_v6 i)))
  then (set_proto_data i PNone, [])
  else
    let e := match pd_passive (proto_data i) with
             | Some _ => if k_passive_check k && no_passive then [IgpPassive (ii_name i)] else []
             | None => []
             end in
    let j := passive running i in
    match k_types k with
    | None => (j, e)
    | Some t => let (x, e') := network_type t j in (x, e ++ e')
    end.

(* ospf.py:21-50 ospf_unnumbered; [sup]: the device supports OSPF on unnumbered interfaces *)
Definition ospf_unnumbered (sup : bool) (is : list igi) : list igp_error :=
  let un := filter (fun i => in_proto i && match ii_v4 i with Some (IBool true) => true | _ => false end) is in
  flat_map (fun i => match length (ii_ngbs i) with
                     | O => [IgpStubUnnum (ii_name i)]
                     | S O => []
                     | _ => [IgpMultiaccess (ii_name i)]
                     end) un
  ++ match un with [] => [] | _ => if sup then [] else [IgpUnnumbered] end.

(* ---- VRF instances ---- *)

(* vrfs[v][proto]: missing, False, True or a dictionary with the active flag and the list of interfaces *)
Inductive vst := VNone | VFalse | VTrue | VData (active : option bool) (is : list igi).

Definition has_addr (i : igi) : bool :=
  match ii_v4 i, ii_v6 i with None, None => ii_dhcp4 i || ii_dhcp6 i | _, _ => true end.

(* _routing.py:299-304 remove_unaddressed_intf *)
Definition remove_unaddressed (i : igi) : igi := if in_proto i && negb (has_addr i) then set_proto_data i PNone else i.

(* _routing.py:254-257 remove_vrf_interfaces *)
Definition remove_vrf_intf (i : igi) : igi :=
  match ii_vrf i with Some _ => if in_proto i then set_proto_data i PNone else i | None => i end.

(* _routing.py:263-281: one interface *)
Definition vrf_intf (running : string -> bool) (vs : dict vst) (i : igi) : dict vst * igi :=
  match ii_proto i, ii_vrf i with
  | PNone, _ | _, None => (vs, i)
  | _, Some v =>
      let st := match dget v vs with Some s => s | None => VNone end in
      let add a ifs := (dset v (VData (Some (a || existsb running (ii_ngbs i))%bool) (ifs ++ [i])) vs, set_proto_data i PNone) in
      match st with
      | VFalse => (vs, set_proto_data i PNone)
      | VTrue => add true []
      | VNone => add false []
      | VData a ifs => add (match a with Some b => b | None => false end) ifs
      end
  end.

Fixpoint vrf_intfs (running : string -> bool) (vs : dict vst) (is : list igi) : dict vst * list igi :=
  match is with
  | [] => (vs, [])
  | i :: r => let (vs1, j) := vrf_intf running vs i in let (vs2, q) := vrf_intfs running vs1 r in (vs2, j :: q)
  end.

(* _routing.py:283-290: inactive instances are removed. Forced instances without interfaces are still True, reading the
   flag fails. *)
Definition vrf_cleanup (s : vst) : vst := match s with VData (Some true) ifs => VData (Some true) ifs | _ => VNone end.

(* _routing.py:262-290 build_vrf_interface_list without remove_vrf_imports *)
Definition build_vrf_interface_list (running : string -> bool) (vs : dict vst) (is : list igi) : dict vst * list igi :=
  let (vs1, js) := vrf_intfs running vs is in (map (fun kv => (fst kv, vrf_cleanup (snd kv))) vs1, js).

(* ---- address families ---- *)

(* _routing.py:45-55 computed address family; [lb]: it is enabled on the loopback interface *)
Definition af_used (pick : igi -> bool) (lb : bool) (is : list igi) : bool :=
  lb || existsb (fun i => in_proto i && pick i && match ii_vrf i with None => true | Some _ => false end) is.
Definition pick4 (i : igi) : bool := match ii_v4 i with Some _ => true | None => ii_dhcp4 i end.
Definition pick6 (i : igi) : bool := match ii_v6 i with Some _ => true | None => ii_dhcp6 i end.

(* _routing.py:23-69 routing_af: the resulting address families. [no4], [no6]: the device cannot use the protocol with
   the address family. A missing loopback interface has no address families. *)
Definition routing_af (af : option afdict) (lb4 lb6 no4 no6 : bool) (is : list igi) : bool * bool * list igp_error :=
  let '(v4, v6, e) :=
    match af with
    | Some l => (match dget "ipv4" l with Some b => b | None => false end, match dget "ipv6" l with Some b => b | None => false end,
                 flat_map (fun kv : string * bool => if memS (fst kv) ["ipv4"; "ipv6"] then [] else [IgpBadAf (fst kv)]) l)
    | None => (af_used pick4 lb4 is, af_used pick6 lb6 is, [])
    end in
  (v4, v6, e ++ (if v4 && no4 then [IgpAfUnsupported "ipv4"] else []) ++ (if v6 && no6 then [IgpAfUnsupported "ipv6"] else [])).

(* ---- nodes ---- *)

(* [in_data]: address families of the protocol in node data after the transformation, None when the protocol data were
   removed from the node *)
Record inode := mk_inode {
  in_intfs : list igi;
  in_lb4 : bool; in_lb6 : bool;          (* address families of the loopback interface *)
  in_af : option afdict;                 (* configured af attribute *)
  in_bfd : option bfdval;                (* configured bfd attribute *)
  in_vrfs : dict vst;
  in_modules : list string;
  in_data : option (bool * bool) }.

(* Device features *)
Record ifeatures := mk_ifeat { if_no4 : bool; if_no6 : bool; if_no_passive : bool; if_unnum : bool }.

Definition is_vdata (s : vst) : bool := match s with VNone => false | _ => true end.

(* _routing.py:308-329 remove_unused_igp: protocol data of the node and the list of modules *)
Definition remove_unused_igp (proto : string) (is : list igi) (af : bool * bool) (vs : dict vst) (mods : list string)
  : option (bool * bool) * list string :=
  let data := if existsb in_proto is then Some af else None in
  let used := match data with Some (v4, v6) => v4 || v6 | None => false end || existsb (fun kv => is_vdata (snd kv)) vs in
  (data, if used then mods else filter (fun m => negb (String.eqb m proto)) mods).

(* The bfd call in front of the loop over interfaces (ospf.py:98, ripv2.py:44, isis.py:53); eigrp has none *)
Definition igp_bfd (proto : string) (n : inode) : option bfdval * option afdict * list igi :=
  let on := memS "bfd" (in_modules n) in
  if String.eqb proto "isis" then multiprotocol_bfd on (in_bfd n) (in_af n) (in_intfs n)
  else if String.eqb proto "eigrp" then (in_bfd n, in_af n, in_intfs n)
  else let (b, is) := bfd_link_state on (in_bfd n) (in_intfs n) in (b, in_af n, is).

(* node_post_transform of the protocol modules with igp_post_transform (_routing.py:727-756) *)
Definition igp_node (k : igp_kind) (proto : string) (f : ifeatures) (running : string -> bool) (n : inode) : inode * list igp_error :=
  let '(b, af, is0) := igp_bfd proto n in
  let is1 := map (fun i => fst (igp_intf k (if_no_passive f) running i)) is0 in
  let e1 := flat_map (fun i => snd (igp_intf k (if_no_passive f) running i)) is0 in
  let e2 := if k_unnum_check k then ospf_unnumbered (if_unnum f) is1 else [] in
  match e2 with
  | _ :: _ => (mk_inode is1 (in_lb4 n) (in_lb6 n) af b (in_vrfs n) (in_modules n) (in_data n), e1 ++ e2)
  | [] =>
      let is2 := map remove_unaddressed is1 in
      let '(vs, is3) := if k_vrf_aware k then build_vrf_interface_list running (in_vrfs n) is2 else (in_vrfs n, map remove_vrf_intf is2) in
      let '(v4, v6, e3) := routing_af af (in_lb4 n) (in_lb6 n) (if_no4 f) (if_no6 f) is3 in
      let '(data, mods) := remove_unused_igp proto is3 (v4, v6) vs (in_modules n) in
      (mk_inode is3 (in_lb4 n) (in_lb6 n) af b vs mods data, e1 ++ e3)
  end.

(* modules/__init__.py:475-488 node_transform, for one module: nodes using the module in lab order. The list of modules
   of a neighbor is read when the node is processed. [f]: features of the device of a node. *)
Definition lab_running (proto : string) (lab : dict inode) (k : string) : bool :=
  match dget k lab with Some n => memS proto (in_modules n) | None => false end.

Fixpoint igp_lab (kd : igp_kind) (proto : string) (f : string -> ifeatures) (names : list string) (lab : dict inode) : dict inode * list igp_error :=
  match names with
  | [] => (lab, [])
  | k :: r =>
      match dget k lab with
      | None => igp_lab kd proto f r lab
      | Some n =>
          if memS proto (in_modules n) then
            let (n', e) := igp_node kd proto (f k) (lab_running proto lab) n in
            let (lab', e') := igp_lab kd proto f r (dset k n' lab) in (lab', e ++ e')
          else igp_lab kd proto f r lab
      end
  end.

(* ---- ripv2.py:26-37 adjust_rip_timers ---- *)
Record rtimers := mk_rt { rt_update : option Z; rt_timeout : option Z; rt_garbage : option Z }.
Definition adjust_rip_timers (t : option rtimers) : option rtimers :=
  match t with
  | None => None
  | Some x =>
      let u := match rt_update x with Some u => u | None => 30%Z end in
      Some (mk_rt (Some u) (Some (match rt_timeout x with Some v => v | None => (u * 6)%Z end))
                  (Some (match rt_garbage x with Some v => v | None => (u * 4)%Z end)))
  end.
