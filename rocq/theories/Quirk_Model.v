(* Model of device quirks: netsim/devices/__init__.py report_quirk, junos.py, nxos.py, iosvl2.py, cumulus_nvue.py and eos.py.
   Interfaces are records of the attributes the quirks read and write. Definitions only. *)
From Coq Require Import String Ascii ZArith Bool List.
From Verif Require Import Base Box_Model Vrf_Model Text_Model.
Import ListNotations.
Local Open Scope string_scope.
Local Open Scope list_scope.
Local Open Scope Z_scope.

(* devices/__init__.py:142-151 report_quirk: a quirk is reported unless it is set to a false value. [warn]: warnings of the device in
   defaults, [path]: components of the quirk name *)
Definition quirk_enabled (warn : val) (path : list string) : bool :=
  match lookup path warn with Some v => truthy v | None => true end.

(* ---- Junos ---- *)

(* j_name ifname, j_vlan: VLAN data present, with or without mode; j_base junos_interface, j_unit junos_unit,
   j_nid _vlan_native_id (inner None: VLAN without ID), j_hmtu _junos_mtu_with_headers, j_master _vlan_master *)
Record jintf := JI {
  j_name : string; j_mtu : option Z; j_native : option string; j_vlan : option (option string);
  j_base : option string; j_unit : option string; j_nid : option (option Z); j_hmtu : option Z; j_master : bool }.

(* '.' in ifname *)
Definition has_dot (s : string) : bool := match split1 "." s with Some _ => true | None => false end.

(* junos.py:17-24 unit_0_trick *)
Definition unit_0_trick (i : jintf) : jintf :=
  JI (j_name i ++ ".0") (j_mtu i) (j_native i) (j_vlan i) (Some (j_name i)) (Some "0") (j_nid i) (j_hmtu i) (j_master i).

(* junos.py:26-29 set_junos_mtu; the MTU is an integer *)
Definition set_junos_mtu (delta : Z) (i : jintf) : jintf :=
  match j_mtu i with
  | None => i
  | Some m => JI (j_name i) (j_mtu i) (j_native i) (j_vlan i) (j_base i) (j_unit i) (j_nid i) (Some (m + delta)) (j_master i)
  end.

(* junos.py:42-44 ID of the native VLAN *)
Definition set_native_id (vlans : dict Z) (i : jintf) : jintf :=
  match j_native i with
  | None => i
  | Some v => JI (j_name i) (j_mtu i) (j_native i) (j_vlan i) (j_base i) (j_unit i) (Some (dget v vlans)) (j_hmtu i) (j_master i)
  end.

(* junos.py:46-50 interface and unit from the parts of the name *)
Definition split_unit (i : jintf) : jintf :=
  match split "." (j_name i) with
  | b :: u :: _ => JI (j_name i) (j_mtu i) (j_native i) (j_vlan i) (Some b) (Some u) (j_nid i) (j_hmtu i) (j_master i)
  | _ => i
  end.

(* junos.py:36-50 one interface *)
Definition junos_one (vmod : bool) (vlans : dict Z) (i : jintf) : jintf :=
  split_unit (if has_dot (j_name i) then i
              else let a := set_junos_mtu 14 (unit_0_trick i) in if vmod then set_native_id vlans a else a).

(* junos.py:51-52 interfaces with VLANs *)
Definition vlan_base (vmod : bool) (i : jintf) : list string :=
  if vmod then match j_vlan i, j_base i with Some _, Some b => [b] | _, _ => [] end else [].

(* junos.py:57-68 unit 0 of an interface with VLANs *)
Definition junos_master (kind : string) (bases : list string) (i : jintf) : jintf :=
  match j_unit i, j_base i with
  | Some u, Some b =>
      if String.eqb u "0" && memS b bases then
        let m := JI (j_name i) (j_mtu i) (j_native i) (j_vlan i) (j_base i) (j_unit i) (j_nid i) (j_hmtu i) true in
        if String.eqb kind "router" then set_junos_mtu 22 m
        else if String.eqb kind "l3-switch" then
          match j_vlan i with
          | None => set_junos_mtu 22 m
          | Some (Some md) => if String.eqb md "route" then set_junos_mtu 22 m else m
          | Some None => m
          end
        else m
      else i
  | _, _ => i
  end.

(* junos.py:31-68 fix_unit_0, interfaces of the node *)
Definition fix_unit_0 (vmod : bool) (kind : string) (vlans : dict Z) (l : list jintf) : list jintf :=
  let l1 := map (junos_one vmod vlans) l in
  match flat_map (vlan_base vmod) l1 with
  | [] => l1
  | bases => map (junos_master kind bases) l1
  end.

(* junos.py:70-75 copies of interfaces in OSPF lists of VRFs *)
Definition fix_ospf_copy (i : jintf) : jintf := if has_dot (j_name i) then i else unit_0_trick i.

(* junos.py:77-91 loopbacks per VRF; interfaces are type and VRF *)
Definition loopback_step (d : dict Z) (i : option string * option string) : dict Z :=
  match fst i with
  | Some t => if String.eqb t "loopback" then
                let v := match snd i with Some v => v | None => "default" end in
                match dget v d with Some n => dset v (n + 1) d | None => dset v 1 d end
              else d
  | None => d
  end.

(* junos.py:77-99 check_multiple_loopbacks: reported VRFs *)
Definition check_multiple_loopbacks (main : bool) (l : list (option string * option string)) : list (string * Z) :=
  filter (fun x => negb (snd x <=? 1)) (fold_left loopback_step l (if main then [("default", 1)] else [])).

(* ---- Nexus OS and IOS layer-2 images ---- *)

Record vintf := VI { v_name : string; v_trunk : list Z; v_access : option Z; v_nat : option string }.

Definition no_native (o : option Z) : bool := match o with None => true | Some n => n =? 0 end.

(* nxos.py:24-27, iosvl2.py:28-31 one interface, with the ID and the name of the unused VLAN *)
Definition vlan_1_intf (id : Z) (name : string) (i : vintf) : vintf * bool :=
  if memZ 1 (v_trunk i) && no_native (v_access i) then (VI (v_name i) (v_trunk i) (Some id) (Some name), true) else (i, false).

(* nxos.py:23-33, iosvl2.py:27-37 vlan_1_tagged: changed interfaces and names in warnings *)
Definition vlan_1_tagged (id : Z) (name : string) (warn : val) (l : list vintf) : list vintf * list string :=
  (map (fun i => fst (vlan_1_intf id name i)) l,
   flat_map (fun i => if snd (vlan_1_intf id name i) && quirk_enabled warn ["vlan"; "tagged_1"] then [v_name i] else []) l).

(* nxos.py:11-19 check_reserved_vlans; VLANs of the node with their IDs *)
Definition nxos_reserved (warn : val) (vlans : dict Z) : list string :=
  flat_map (fun x => if (3966 <? snd x) && quirk_enabled warn ["vlan"; "range"] then [fst x] else []) vlans.

(* iosvl2.py:13-19 check_reserved_vlans *)
Definition ios_reserved (vlans : dict Z) : list string :=
  flat_map (fun x => if (1002 <=? snd x) && (snd x <? 1006) then [fst x] else []) vlans.

(* ---- Cumulus NVUE ---- *)

(* s_prio: the interface has a STP port priority, s_trunk: VLANs in the trunk and whether they have a port priority *)
Record sintf := SI { s_name : string; s_vlan : bool; s_prio : bool; s_trunk : list (string * bool) }.

Inductive stp_err := NonVlan (ifname : string) | NoPvrst (ifname : string) | TrunkNoPvrst (vlan ifname : string).

(* cumulus_nvue.py:14-40 nvue_check_stp_features: [proto] is the STP protocol of the topology *)
Definition nvue_stp (proto : string) (l : list sintf) : list stp_err :=
  flat_map (fun i => if s_prio i then
                       if negb (s_vlan i) then [NonVlan (s_name i)]
                       else if negb (String.eqb proto "pvrst") then [NoPvrst (s_name i)] else []
                     else []) l
  ++ (if negb (String.eqb proto "pvrst") then
        flat_map (fun i => flat_map (fun v => if snd v : bool then [TrunkNoPvrst (fst v) (s_name i)] else []) (s_trunk i)) l
      else []).

(* cumulus_nvue.py:16 the protocol comes from the topology; STP protocol is also an attribute of nodes (stp.yml), not used here *)
Definition nvue_check_stp (topo node : option string) (l : list sintf) : list stp_err :=
  nvue_stp (match topo with Some p => p | None => "stp" end) l.

(* t_native _vlan_native, t_parent parent_ifindex, t_mode vlan.mode *)
Record tintf := TI { t_name : string; t_ifindex : Z; t_native : option string; t_parent : option Z; t_mode : option string }.

Definition bridged (m : option string) : bool :=
  match m with None => true | Some m => String.eqb m "bridge" || String.eqb m "irb" end.

(* cumulus_nvue.py:56-73 nvue_check_native_routed_on_mixed_trunk: reported interfaces, one report for every bridged subinterface.
   [modes]: modes of VLANs of the topology *)
Definition nvue_mixed (modes : dict string) (l : list tintf) : list string :=
  flat_map (fun i => match t_native i with
                     | None => []
                     | Some v => match dget v modes with
                                 | Some m => if String.eqb m "route" then
                                     flat_map (fun j => match t_parent j with
                                                        | Some p => if (p =? t_ifindex i) && bridged (t_mode j) then [t_name i] else []
                                                        | None => []
                                                        end) l
                                   else []
                                 | None => []
                                 end
                     end) l.

(* cumulus_nvue.py:125-132 mark_shared_mlag_vtep: the node sharing the VTEP. Nodes are names and VTEPs; nodes with different names are
   different *)
Fixpoint vtep_owner (me vtep : string) (nodes : dict (option string)) : option string :=
  match nodes with
  | [] => None
  | (n, v) :: r =>
      match v with
      | Some w => if negb (String.eqb n me) && String.eqb w vtep then Some n else vtep_owner me vtep r
      | None => vtep_owner me vtep r
      end
  end.
Definition shared_vtep (me : string) (nodes : dict (option string)) : option string :=
  match dget me nodes with
  | Some (Some v) => if String.eqb v "" then None else vtep_owner me v nodes
  | _ => None
  end.

(* ---- Arista EOS ---- *)

(* VLAN: name, ID, in a bundle, mode *)
Record evlan := EV { ev_name : string; ev_id : Z; ev_bundle : bool; ev_mode : option string }.

Definition vlan_ifname (n : Z) : string := ("Vlan" ++ zdec n)%string.

(* eos.py:12-25 check_mlps_vlan_bundle: remaining interface names and reported VLANs *)
Definition bundle_step (st : list string * list string) (v : evlan) : list string * list string :=
  if ev_bundle v then
    (filter (fun n => negb (String.eqb n (vlan_ifname (ev_id v)))) (fst st),
     snd st ++ match ev_mode v with Some m => if String.eqb m "bridge" then [] else [ev_name v] | None => [ev_name v] end)
  else st.
Definition mpls_bundle (transport : option string) (vlans : list evlan) (ifs : list string) : list string * list string :=
  match transport with
  | Some t => if String.eqb t "mpls" then fold_left bundle_step vlans (ifs, []) else (ifs, [])
  | None => (ifs, [])
  end.

(* eos.py:29-32 version: second part of the image name *)
Definition ceos_version (image : string) : string :=
  match split ":" image with _ :: v :: _ => v | _ => "" end.

(* eos.py:27-39 check_mpls_clab: is a container image too old? Python compares strings by characters *)
Definition ceos_old (image : string) : bool := String.ltb (ceos_version image) "4.32.1F".
