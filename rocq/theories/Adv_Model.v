(* Model of netsim/modules/bgp.py: prefixes advertised into BGP, BGP address families, community keywords and EBGP roles of
   links and VLANs. Definitions only. *)
From Coq Require Import String Ascii ZArith Bool List.
From Verif Require Import Base Box_Model.
From Verif Require Clone_Model Bgp_Model.
Import ListNotations.
Local Open Scope string_scope.
Local Open Scope list_scope.

(* the bgp attribute of an interface *)
Inductive ibgp := NoBgp | BgpOff | BgpData (d : dict val).
(* an interface: type, role, bgp, neighbors, addresses, in a VRF *)
Record aintf := mk_ai { ai_type : option string; ai_role : option string; ai_bgp : ibgp; ai_ngb : list string; ai_af : dict val; ai_vrf : bool }.
(* a node: daemon, role *)
Record anode := mk_an { an_daemon : bool; an_role : string }.

Section Advertise.
Variable nodes : string -> anode.                          (* nodes of the topology *)
Variable roles : list string.                              (* bgp.advertise_roles *)
Variable loops : bool.                                     (* bgp.advertise_loopback of the node *)

(* modules/_routing.py:111-121 is_true_stub without a protocol *)
Definition true_stub (i : aintf) : bool :=
  forallb (fun n => negb (an_daemon (nodes n) || negb (String.eqb (an_role (nodes n)) "host"))) (ai_ngb i).

Definition set_bgp (b : ibgp) (i : aintf) : aintf := mk_ai (ai_type i) (ai_role i) b (ai_ngb i) (ai_af i) (ai_vrf i).
Definition bgp_data (b : ibgp) : dict val := match b with BgpData d => d | _ => [] end.
Definition in_roles (x : option string) : bool := match x with Some s => memS s roles | None => false end.

(* modules/bgp.py:458-476 bgp_set_advertise: one interface *)
Definition advertise_intf (i : aintf) : aintf :=
  let set b := set_bgp (BgpData (dset "advertise" (VBool b) (bgp_data (ai_bgp i)))) i in
  match ai_bgp i with
  | BgpOff => i
  | _ =>
    if dmem "advertise" (bgp_data (ai_bgp i)) then i
    else if in_roles (ai_type i) || in_roles (ai_role i) then
      set (match ai_role i with
           | Some s => if String.eqb s "stub" then true_stub i else true
           | None => true
           end)
    else match ai_type i with
         | Some t => if String.eqb t "loopback" && loops then set true else i
         | None => i
         end
  end.

(* modules/bgp.py:455-476 bgp_set_advertise *)
Definition set_advertise (l : list aintf) : list aintf := map advertise_intf l.
End Advertise.

(* a node: originated prefixes, address family flags, bgp.advertise_loopback, families of the loopback, interfaces *)
Record onode := mk_on { on_orig : list string; on_flags : dict val; on_loops : option val; on_lb : list string; on_intf : list aintf }.

Definition flag (k : string) (d : dict val) : bool := match dget k d with Some v => truthy v | None => false end.

Section Originate.
Variable pfx : dict (option string).                       (* named prefixes with their IPv4 components *)

(* modules/bgp.py:489-497 bgp_set_originate_af: one originated prefix *)
Definition orig_value (o : string) : string := match dget o pfx with Some (Some v) => v | _ => o end.
Definition orig_error (o : string) : list string := match dget o pfx with Some None => [o] | _ => [] end.

(* modules/bgp.py:508-512 bgp_set_originate_af: an interface *)
Definition intf_active (af : string) (i : aintf) : bool :=
  flag af (ai_af i) && flag "advertise" (bgp_data (ai_bgp i)) && negb (ai_vrf i).

(* modules/bgp.py:499-512 bgp_set_originate_af: one address family *)
Definition orig_flag (n : onode) (flags : dict val) (af : string) : dict val :=
  if flag af flags then flags
  else if (match on_loops n with Some v => truthy v | None => true end) && memS af (on_lb n) then dset af (VBool true) flags
  else if existsb (intf_active af) (on_intf n) then dset af (VBool true) flags
  else flags.

(* modules/bgp.py:482-512 bgp_set_originate_af; errors - named prefixes *)
Definition originate (n : onode) : onode * list string :=
  let flags := match on_orig n with [] => on_flags n | _ => dset "ipv4" (VBool true) (on_flags n) end in
  (mk_on (map orig_value (on_orig n)) (fold_left (orig_flag n) ["ipv4"; "ipv6"] flags) (on_loops n) (on_lb n) (on_intf n),
   flat_map orig_error (on_orig n)).
End Originate.

Section Community.
Variable table : dict val.                                 (* keywords of the device *)

(* data/__init__.py:164-174 kw_lookup *)
Definition kw_lookup (kw : string) : list val :=
  match dget kw table with
  | None => []
  | Some VNull => [VStr kw]
  | Some (VBool true) => [VStr kw]
  | Some (VBool false) => []
  | Some (VList l) => l
  | Some v => [v]
  end.

(* data/__init__.py:179-181 kw_list_transform *)
Definition add_new (l : list val) (v : val) : list val := if existsb (Clone_Model.veqb v) l then l else l ++ [v].

(* data/__init__.py:176-183 kw_list_transform *)
Definition kw_transform (kws : list string) : list val := fold_left (fun acc kw => fold_left add_new (kw_lookup kw) acc) kws [].

(* modules/bgp.py:583-605 bgp_transform_community_list; errors - session types and keywords. A missing ibgp list is created
   as an empty dictionary when it is read. *)
Definition transform_community (clist : dict (list string)) : dict (list val) * list (string * string) :=
  match clist with
  | [] => ([], [])
  | _ =>
    let full :=
      if dmem "localas_ibgp" clist then clist
      else let c := if dmem "ibgp" clist then clist else dset "ibgp" [] clist in
           dset "localas_ibgp" (match dget "ibgp" c with Some l => l | None => [] end) c in
    (map (fun x => (fst x, kw_transform (snd x))) full,
     flat_map (fun x => flat_map (fun kw => if dmem kw table then [] else [(fst x, kw)]) (snd x)) clist)
  end.
End Community.

(* modules/bgp.py:590-591 bgp_transform_community_list, modules/bgp.py:575-578 BGP_DEFAULT_COMMUNITY_KW; [features] - bgp.community of the device *)
Definition community_table (features : option (dict val)) : dict val :=
  match features with
  | Some ((_ :: _) as t) => t
  | _ => [("standard", VStr "standard"); ("extended", VStr "extended")]
  end.

(* a link: VLAN, role, nodes; a VLAN: role, _as_set *)
Record rlink := mk_rl { rl_vlan : option string; rl_role : option string; rl_nodes : list string }.
Record rvlan := mk_rv { rv_role : option string; rv_set : option (list Z) }.

Section Role.
Variable node_as : string -> option Z.                     (* AS numbers of nodes *)

(* modules/bgp.py:633-638 vlan_ebgp_role_collect: one node *)
Definition collect_node (v : rvlan) (n : string) : rvlan :=
  match node_as n with
  | Some z => if (z =? 0)%Z then v
              else let s := match rv_set v with Some s => s | None => [] end in
                   mk_rv (rv_role v) (Some (if memZ z s then s else s ++ [z]))
  | None => v
  end.

(* modules/bgp.py:628-638 vlan_ebgp_role_collect *)
Definition collect (vlans : dict rvlan) (name : string) (l : rlink) : dict rvlan :=
  match dget name vlans with
  | Some v => dset name (fold_left collect_node (rl_nodes l) v) vlans
  | None => vlans
  end.

(* modules/bgp.py:643-648 vlan_ebgp_role_set: one VLAN *)
Definition vlan_role (role : string) (v : rvlan) : rvlan :=
  match rv_set v with
  | None => v
  | Some s => mk_rv (match rv_role v with Some r => Some r | None => if (1 <? length s)%nat then Some role else None end) None
  end.

(* modules/bgp.py:677-693 module_pre_link_transform *)
Definition set_roles (role : string) (has_vlans : bool) (links : list rlink) (vlans : dict rvlan) : list rlink * dict rvlan :=
  if String.eqb role "" then (links, vlans)
  else
    (map (fun l => match rl_vlan l with
                   | Some _ => l
                   | None => mk_rl None (Bgp_Model.ebgp_role_link (rl_role l) (map node_as (rl_nodes l)) role) (rl_nodes l)
                   end) links,
     if has_vlans then
       map (fun x => (fst x, vlan_role role (snd x)))
           (fold_left (fun vs l => match rl_vlan l with Some name => collect vs name l | None => vs end) links vlans)
     else vlans).
End Role.
