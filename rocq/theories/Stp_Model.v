(* Model of netsim/modules/stp.py. Definitions only. The device features, the settings of the topology and the
   roles of nodes are parameters. *)
From Coq Require Import String ZArith Bool List.
From Verif Require Import Base Box_Model.
Import ListNotations.
Local Open Scope string_scope.
Local Open Scope list_scope.

(* what the module uses of an interface *)
Record sintf := mk_si {
  si_name : string;
  si_ipv4 : bool; si_ipv6 : bool; si_virtual : bool;      (* these attributes are present *)
  si_stp : option (dict val);                             (* the stp attribute *)
  si_access : option string;                              (* vlan.access *)
  si_ngb : option (list string);                          (* names of the nodes in neighbors *)
  si_saved : option (list string)                         (* the same for _vlan_saved_neighbors *)
}.

(* a VLAN of a node: stp.priority and stp.port_type *)
Record svlan := mk_sv { sv_priority : option Z; sv_type : option string }.

Record snode := mk_sn {
  sn_enable : option val;
  sn_protocol : option string;                            (* stp.protocol of the node: not used by the module *)
  sn_priority : option Z;
  sn_type : option string;
  sn_vlans : list (string * svlan);
  sn_intf : list sintf
}.

(* device features and topology settings *)
Record sdev := mk_sd { sd_protocols : list string; sd_per_port : bool; sd_port_type : bool }.
Record stopo := mk_st { st_protocol : option string; st_stub : option string }.

Inductive serr :=
| SProtocol (p : string) | SPriority (z : Z)
| SL3 (i : string) | SEnable (i : string) | SPortType (i : string)
| SPvrst (vlan proto : string) | SPvrstSupport (vlan : string).

(* the access VLAN of an interface is not in the VLANs of the node *)
Inductive scrash := SNoVlan (i vlan : string).

(* modules/stp.py:14-19 supports_stp *)
Definition supports_stp (i : sintf) : bool := negb (si_ipv4 i || si_ipv6 i) && negb (si_virtual i).

Definition set_type (t : string) (i : sintf) : sintf :=
  mk_si (si_name i) (si_ipv4 i) (si_ipv6 i) (si_virtual i)
    (Some (dset "port_type" (VStr t) (match si_stp i with Some d => d | None => [] end))) (si_access i) (si_ngb i) (si_saved i).

Definition some_of (l : option (list string)) : list string := match l with Some l => l | None => [] end.
Definition nonempty (l : list string) : bool := match l with [] => false | _ => true end.

(* modules/stp.py:24-32 configure_stub_port_type; [role] - the roles of the nodes *)
Definition is_stub (role : string -> option string) (i : sintf) : bool :=
  (nonempty (some_of (si_ngb i)) || nonempty (some_of (si_saved i))) &&
  forallb (fun n => match role n with Some r => String.eqb r "host" | None => false end)
          (match si_ngb i with Some l => l | None => some_of (si_saved i) end).

Definition has (k : string) (i : sintf) : bool := match si_stp i with Some d => dmem k d | None => false end.

(* modules/stp.py:58-72 node_post_transform: the checks of an interface *)
Definition check_intf (dev : sdev) (i : sintf) : list serr :=
  match si_stp i with
  | None => []
  | Some _ =>
      (if si_ipv4 i || si_ipv6 i then [SL3 (si_name i)] else []) ++
      (if has "enable" i && negb (sd_per_port dev) then [SEnable (si_name i)] else []) ++
      (if has "port_type" i && negb (sd_port_type dev) then [SPortType (si_name i)] else [])
  end.

(* modules/stp.py:76 node_post_transform: the port type of an interface is not set, or it is null *)
Definition no_type (i : sintf) : bool :=
  match si_stp i with
  | Some d => match dget "port_type" d with Some VNull | None => true | Some _ => false end
  | None => true
  end.

Definition node_type (node : snode) (i : sintf) : sintf := match sn_type node with Some t => set_type t i | None => i end.

(* modules/stp.py:74-91 node_post_transform: the port type of an interface *)
Definition intf_type (dev : sdev) (topo : stopo) (role : string -> option string) (node : snode) (i : sintf) : result scrash sintf :=
  if negb (sd_port_type dev) then Ok i
  else if no_type i && supports_stp i then
    let stub := match st_stub topo with Some s => s | None => "none" end in
    if negb (String.eqb stub "none") && is_stub role i then Ok (set_type stub i)
    else match si_access i with
         | None => Ok (node_type node i)
         | Some v => match dget v (sn_vlans node) with
                     | None => Err (SNoVlan (si_name i) v)
                     | Some vd => match sv_type vd with
                                  | Some t => Ok (set_type t i)
                                  | None => Ok (node_type node i)
                                  end
                     end
         end
  else Ok i.

Fixpoint intf_types (f : sintf -> result scrash sintf) (l : list sintf) : result scrash (list sintf) :=
  match l with
  | [] => Ok []
  | i :: r => match f i with
              | Ok i' => match intf_types f r with Ok r' => Ok (i' :: r') | Err e => Err e end
              | Err e => Err e
              end
  end.

Definition protocol_of (topo : stopo) : string := match st_protocol topo with Some p => p | None => "stp" end.

(* modules/stp.py:93-106 node_post_transform: per-VLAN priority *)
Definition check_vlans (dev : sdev) (topo : stopo) (l : list (string * svlan)) : list serr :=
  flat_map (fun '(v, d) =>
    match sv_priority d with
    | Some z => if Z.eqb z 0 then []
                else if negb (String.eqb (protocol_of topo) "pvrst") then [SPvrst v (protocol_of topo)]
                else if negb (memS "pvrst" (sd_protocols dev)) then [SPvrstSupport v] else []
    | None => []
    end) l.

Definition enabled (node : snode) : bool := match sn_enable node with Some v => truthy v | None => true end.

(* modules/stp.py:37-106 node_post_transform: the interfaces and the errors *)
Definition stp_transform (dev : sdev) (topo : stopo) (role : string -> option string) (node : snode)
  : result scrash (list sintf * list serr) :=
  if negb (enabled node) then Ok (sn_intf node, [])
  else
    match intf_types (intf_type dev topo role node) (sn_intf node) with
    | Err e => Err e
    | Ok l =>
        Ok (l,
            (if memS (protocol_of topo) (sd_protocols dev) then [] else [SProtocol (protocol_of topo)]) ++
            (match sn_priority node with
             | Some z => if Z.eqb z 0 || Z.eqb (z mod 4096) 0 then [] else [SPriority z]
             | None => []
             end) ++
            flat_map (check_intf dev) (sn_intf node) ++ check_vlans dev topo (sn_vlans node))
    end.
