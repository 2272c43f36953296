(* Model of netsim/modules/evpn.py: EVPN address family of BGP sessions, route target AS number, VLAN services and VLAN bundles,
   EVPN lists of nodes, checks of IRB modes and bundle types. Definitions only. *)
From Coq Require Import String Ascii ZArith Bool List.
From Verif Require Import Base Box_Model Vrf_Model Evpn_Model.
Import ListNotations.
Local Open Scope string_scope.
Local Open Scope list_scope.

(* ---- sessions ---- *)

(* a BGP neighbor: name, session type, the evpn flag *)
Record enb := mk_enb { nb_name : string; nb_type : string; nb_evpn : bool }.

(* evpn.py:45-53 enable_evpn_af. [sessions]: evpn.session of the node, [nodes]: module lists of all nodes. Err: the TypeError raised
   by testing membership in a missing module list. *)
Fixpoint enable_evpn_af (sessions : list string) (nodes : dict (option (list string))) (l : list enb) : result string (list enb) :=
  match l with
  | [] => Ok []
  | b :: r =>
      if memS (nb_type b) sessions then
        match dget (nb_name b) nodes with
        | Some (Some ms) =>
            match enable_evpn_af sessions nodes r with
            | Ok r' => Ok (mk_enb (nb_name b) (nb_type b) (if memS "evpn" ms then true else nb_evpn b) :: r')
            | Err e => Err e
            end
        | _ => Err (nb_name b)
        end
      else match enable_evpn_af sessions nodes r with
           | Ok r' => Ok (b :: r')
           | Err e => Err e
           end
  end.

(* ---- VLAN services ---- *)

Inductive serr :=
| EAsn | EEvi (vlan : string) | EType (vrf : string) | ENotGlobal (vlan : string) | EBundleEvpn (vlan : string).

(* evpn.py:55-67 get_usable_evpn_asn. The arguments are evpn.as, vrf.as and bgp.as; None is the error, the value used is then 0 *)
Definition orv (a b : option val) : option val :=
  match a with Some v => if truthy v then a else b | None => b end.
Definition get_usable_evpn_asn (ea va ba : option val) : option Z :=
  match orv ea (orv va ba) with
  | Some (VInt z) => if truthy (VInt z) then Some z else None
  | _ => None
  end.

(* evpn attributes of a VLAN *)
Record evd := mk_evd { e_evi : option Z; e_bundle : option string; e_imp : option (list string); e_exp : option (list string) }.
(* a global VLAN *)
Record svlan := mk_svlan { sv_id : Z; sv_vrf : option string; sv_evpn : option evd }.
(* evpn attributes of a VRF *)
Record red := mk_red { b_type : option string; b_evi : option Z; b_vlans : option (list string); b_ids : option (list Z) }.
(* a global VRF; only VRFs created by reading a missing key have no id *)
Record svrf := mk_svrf { r_id : option Z; r_evpn : option red }.

Record sst := mk_sst { s_vlans : dict svlan; s_vrfs : dict svrf; s_errs : list serr }.

Definition add_err (c : bool) (e : serr) (t : sst) : sst :=
  mk_sst (s_vlans t) (s_vrfs t) (s_errs t ++ if c then [e] else []).

(* evpn.py:69-80 vlan_based_service *)
Definition vlan_based_service (asn : option Z) (n : string) (v : svlan) (t : sst) : sst :=
  let e := match sv_evpn v with Some e => e | None => mk_evd None None None None end in
  let evi := match e_evi e with Some i => if (i =? 0)%Z then sv_id v else i | None => sv_id v end in
  let rt := [fmt_rd (zdec (match asn with Some a => a | None => 0%Z end)) evi] in
  let e' := mk_evd (Some evi) (e_bundle e) (match e_imp e with Some l => Some l | None => Some rt end)
                   (match e_exp e with Some l => Some l | None => Some rt end) in
  let t' := mk_sst (dset n (mk_svlan (sv_id v) (sv_vrf v) (Some e')) (s_vlans t)) (s_vrfs t) (s_errs t) in
  add_err (negb ((1 <=? evi)%Z && (evi <=? 65535)%Z)) (EEvi n)
    (add_err (match asn with Some _ => false | None => true end) EAsn t').

(* evpn.py:82-115 vlan_aware_bundle_service *)
Definition vlan_aware_bundle_service (n : string) (v : svlan) (r : string) (t : sst) : sst :=
  match dget r (s_vrfs t) with
  | None => add_err true (ENotGlobal n) t
  | Some x =>
      match sv_evpn v with
      | Some _ => add_err true (EBundleEvpn n) t
      | None =>
          let ev := match r_evpn x with Some ev => ev | None => mk_red None None None None end in
          let evi := match b_evi ev with Some i => Some i | None => r_id x end in
          mk_sst (dset n (mk_svlan (sv_id v) (sv_vrf v) (Some (mk_evd evi (b_type ev) None None))) (s_vlans t))
                 (dset r (mk_svrf (r_id x)
                    (Some (mk_red (b_type ev) evi
                       (Some (match b_vlans ev with Some l => l | None => [] end ++ [n]))
                       (Some (match b_ids ev with Some l => l | None => [] end ++ [sv_id v]))))) (s_vrfs t))
                 (s_errs t)
      end
  end.

(* evpn.py:126 topology.vrfs[vlan.vrf]: reading a missing VRF creates an empty one *)
Definition touch (r : string) (t : sst) : sst :=
  match dget r (s_vrfs t) with
  | Some _ => t
  | None => mk_sst (s_vlans t) (dset r (mk_svrf None None) (s_vrfs t)) (s_errs t)
  end.

(* evpn.py:122-137 get_vlan_bundle_flag, VLAN with a VRF: the bundle type unless it is missing or empty *)
Definition bundle_type (r : string) (t : sst) : option string :=
  match dget r (s_vrfs t) with
  | Some x => match r_evpn x with
              | Some ev => match b_type ev with
                           | Some b => if String.eqb b "" then None else Some b
                           | None => None
                           end
              | None => None
              end
  | None => None
  end.

(* evpn.py:143-148 create_vlan_service. [valid]: valid values of evpn.bundle; an invalid one is reported but used *)
Definition create_vlan_service (asn : option Z) (valid : list string) (t : sst) (n : string) : sst :=
  match dget n (s_vlans t) with
  | None => t
  | Some v =>
      match sv_vrf v with
      | None => vlan_based_service asn n v t
      | Some r =>
          let t1 := touch r t in
          match bundle_type r t1 with
          | Some b => vlan_aware_bundle_service n v r (add_err (negb (memS b valid)) (EType r) t1)
          | None => vlan_based_service asn n v t1
          end
      end
  end.

(* evpn.py:408-409 services of all VLANs in evpn.vlans *)
Definition vlan_services (asn : option Z) (valid : list string) (names : list string) (t : sst) : sst :=
  fold_left (create_vlan_service asn valid) names t.

(* evpn.py:266-272 vrf_irb_setup *)
Definition vrf_irb_setup (vrfs : dict svrf) : dict svrf :=
  map (fun kv : string * svrf =>
    (fst kv,
     match r_evpn (snd kv) with
     | None => snd kv
     | Some ev => mk_svrf (r_id (snd kv))
                    (Some (mk_red (b_type ev) (match b_evi ev with Some i => Some i | None => r_id (snd kv) end) (b_vlans ev) (b_ids ev)))
     end)) vrfs.

(* ---- nodes ---- *)

(* evpn.py:154-165 validate_no_node_vrf_attributes: the VRFs reported *)
Definition node_vrf_attributes (vrfs : option (dict val)) : list string :=
  match vrfs with
  | None => []
  | Some d => flat_map (fun kv : string * val => match snd kv with VDict x => if dmem "evpn" x then [fst kv] else [] | _ => [] end) d
  end.

(* evpn.py:277-281 copy_global_evpn_lists. [g]: topology.evpn, empty when missing *)
Definition copy_global_evpn_lists (g ne : dict val) : dict val :=
  fold_left (fun ne k => match dget k g with Some v => if dmem k ne then ne else dset k v ne | None => ne end)
    ["vlans"; "vrfs"; "transport"] ne.

(* evpn.py:286-292 trim_node_evpn_lists, one list. [keys]: names of the VLANs or VRFs of the node *)
Definition trim_list (keys : list string) (l : option (list string)) : option (list string) :=
  match l with Some l => Some (filter (fun k => memS k l) keys) | None => None end.

(* a VRF of a node: VRF has addresses, truth value of evpn.transit_vni, evpn.bundle *)
Record nvrf := mk_nvrf { nv_af : bool; nv_transit : bool; nv_bundle : option string }.

Inductive ierr := ESym (vrf : string) | EAsym (vrf : string) | EIrbVlan (vrf vlan : string).

(* evpn.py:343-367 check_node_vrf_irb. [irb], [asym]: device features *)
Definition check_node_vrf_irb (transport : option string) (irb asym : bool) (vlans : dict avlan) (node_vlans : list string)
    (vrfs : dict nvrf) : list ierr :=
  let tr := match transport with Some s => s | None => "vxlan" end in
  flat_map (fun kv : string * nvrf =>
    let x := snd kv in
    if negb (nv_af x) then []
    else if nv_transit x || String.eqb tr "mpls" then
      if negb irb && String.eqb tr "vxlan" then [ESym (fst kv)] else []
    else if negb asym then [EAsym (fst kv)]
    else map (EIrbVlan (fst kv)) (check_asym_vlan (fst kv) vlans node_vlans)) vrfs.

(* evpn.py:373-383 check_node_vrf_bundle: the VRFs reported. [supported]: bundle types of the device, a list *)
Definition check_node_vrf_bundle (supported : list string) (vrfs : dict nvrf) : list string :=
  map fst (filter (fun kv : string * nvrf =>
    match nv_bundle (snd kv) with
    | Some b => negb (String.eqb b "") && negb (memS b supported)
    | None => false
    end) vrfs).
