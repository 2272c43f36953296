(* Model of checks and cleanup of VLAN interfaces (netsim/modules/vlan.py), of IS-IS on unnumbered interfaces (modules/isis.py) and of
   the propagation of OSPF node attributes (modules/ospf.py). Definitions only. *)
From Coq Require Import String Ascii ZArith Bool List.
From Verif Require Import Base Box_Model Dev_Model Ndev_Model.
Import ListNotations.
Local Open Scope string_scope.
Local Open Scope list_scope.

(* ---- VLAN interfaces of links ---- *)

Inductive vmode := VMAbort | VMNone | VMode (m : val).

(* a dotted name with a true value *)
Definition set_path (p : list string) (i : dict val) : bool := match lookup p (VDict i) with Some v => truthy v | None => false end.

(* vlan.py:536-546 get_vlan_interface_mode *)
Definition get_vlan_interface_mode (i : dict val) : vmode :=
  match dget "_vlan_mode" i with
  | Some VNull | None => if set_path ["vlan"; "access"] i || set_path ["vlan"; "native"] i then VMAbort else VMNone
  | Some m => VMode m
  end.

Inductive vlres := VLAbort | VLOk | VLRouted (vlan : string) | VLInvalid (attrs : list string).

Definition is_text (s : string) (v : val) : bool := match v with VStr t => String.eqb t s | _ => false end.
Definition is_false (o : option val) : bool := match o with Some (VBool false) => true | _ => false end.

(* vlan.py:353-359 attributes that may be used on a VLAN interface *)
Definition attr_ok (phy : list string) (i : dict val) (k : string) : bool :=
  memS k (phy ++ ["node"; "_vlan_mode"]) || memS k ["ipv4"; "ipv6"] && is_false (dget k i).

(* vlan.py:332-370 check_link_interface_attributes; [phy]: physical interface attributes, [mixed]: is mixed forwarding checked,
   [modes]: global VLANs with their forwarding modes (empty for none), [vname]: VLAN name of the link *)
Definition check_link_interface (phy : list string) (mixed : bool) (modes : dict string) (vname : option string) (i : dict val) : vlres :=
  match get_vlan_interface_mode i with
  | VMAbort => VLAbort
  | VMNone => VLOk
  | VMode m =>
      if is_text "route" m then VLOk
      else
        let rest := match filter (fun k => negb (attr_ok phy i k)) (dkeys i) with [] => VLOk | bad => VLInvalid bad end in
        match vname with
        | None => rest
        | Some n => match dget n modes with
                    | Some f => if String.eqb f "route" && mixed then VLRouted n else rest
                    | None => rest
                    end
        end
  end.

(* vlan.py:1237-1241 cleanup_vlan_flags, one interface *)
Definition clean_intf (i : dict val) : dict val :=
  let i1 := dpop "_global_merge" (dpop "vlan_name" i) in
  match dget "_vlan_mode" i1 with
  | None => i1
  | Some m => dpop "_vlan_mode" (dset "vlan" (VDict (dset "mode" m (rdd "vlan" i1))) i1)
  end.
(* vlan.py:1243-1246 cleanup_vlan_flags, one VLAN of a node *)
Definition clean_vlan (v : dict val) : dict val := dpop "neighbors" (dpop "_global_merge" v).

(* ---- IS-IS ---- *)

(* an interface: name, address families, number of neighbors *)
Record uintf := UI { u_name : string; u_af : dict val; u_nbrs : nat }.
Inductive uerr := UFamily (af : string) | UMulti (intf : string).

Definition unnum (af : string) (i : uintf) : bool := match dget af (u_af i) with Some (VBool true) => true | _ => false end.

(* isis.py:12-37 isis_unnumbered: errors and result; [sup]: is an unnumbered address family supported, [net]: are unnumbered
   multi-access networks supported *)
Fixpoint families (sup : string -> bool) (l : list uintf) (afs : list string) : option string :=
  match afs with
  | [] => None
  | af :: r => if existsb (unnum af) l && negb (sup af) then Some af else families sup l r
  end.
Definition isis_unnumbered (sup : string -> bool) (net : bool) (l : list uintf) : list uerr * bool :=
  match families sup l ["ipv4"; "ipv6"] with
  | Some af => ([UFamily af], false)
  | None =>
      let bad := filter (fun i => unnum "ipv4" i && Nat.ltb 1 (u_nbrs i) && negb net) l in
      (map (fun i => UMulti (u_name i)) bad, match bad with [] => true | _ => false end)
  end.

(* ---- OSPF ---- *)

(* ospf.py:74-76 one attribute; OSPF data of VRFs are dictionaries *)
Definition copy_attr (ospf : dict val) (vo : dict val) (k : string) : dict val :=
  match dget k ospf with
  | Some v => if dmem k vo then vo else dset k v vo
  | None => vo
  end.
(* ospf.py:70-76 one VRF *)
Definition vrf_ospf (copy : list string) (ospf vdata : dict val) : dict val :=
  match dget "ospf" vdata with
  | Some o => dset "ospf" (VDict (fold_left (copy_attr ospf) copy (entries o))) vdata
  | None => vdata
  end.
(* ospf.py:64-65 loopback *)
Definition loopback_area (n : dict val) : dict val :=
  match dget "loopback" n, dget "area" (rdd "ospf" n) with
  | Some lb, Some a => dset "loopback" (VDict (dset "ospf" (VDict (dset "area" a (rdd "ospf" (entries lb)))) (entries lb))) n
  | _, _ => n
  end.
(* ospf.py:60-76 propagate_node_attributes *)
Definition propagate_ospf (copy : list string) (n : dict val) : dict val :=
  match dget "ospf" n with
  | None => n
  | Some o =>
      let n1 := loopback_area n in
      match dget "vrfs" n1 with
      | None => n1
      | Some vs => dset "vrfs" (VDict (map (fun p => (fst p, VDict (vrf_ospf copy (entries o) (entries (snd p))))) (entries vs))) n1
      end
  end.
