(* Model of first-hop gateways: netsim/modules/gateway.py and the gateway part of netsim/augment/links.py. Definitions
   only.
   Simplifications: a gateway attribute is missing, a flag or a dictionary (modules/gateway.yml: can_be_true); nodes and
   interfaces are reduced to the attributes used here; texts of messages are left out. Box stores copies of assigned
   dictionaries, so values are not shared between links, interfaces and nodes. *)
From Coq Require Import String ZArith Bool List.
From Verif Require Import Base Box_Model IdAlloc_Model.
Import ListNotations.
Local Open Scope string_scope.
Local Open Scope list_scope.

(* ---- reserved ids ---- *)

Inductive gw_err :=
| GwMissing (k : string)          (* a required attribute is missing *)
| GwType                          (* gateway.id is not an integer *)
| GwBroadcast                     (* gateway.id is -1 *)
| GwProtocol                      (* unknown protocol *)
| GwAddress (af : string)         (* no such address in the prefix *)
| GwUnsupported (p : string)      (* the device does not support the protocol *)
| GwCrash.                        (* python exception *)

(* gateway.py:95-113 process_gw_id; is_true_int (data/__init__.py:145-146) excludes booleans *)
Definition process_gw_id (req : bool) (id : option val) (v : idvar) : list gw_err * idvar :=
  match id with
  | None => (if req then [GwMissing "id"] else [], v)
  | Some VNull => (if req then [GwMissing "id"] else [], v)
  | Some (VInt z) => ([], if (z <? 0)%Z then v else snd (reserve_id z v))
  | Some _ => ([GwType], v)
  end.

(* gateway.py:14-21 check_gw_protocol *)
Definition check_gw_protocol (protos : list string) (g : dict val) : list gw_err :=
  match dget "protocol" g with
  | None => []
  | Some (VStr s) => if memS s protos then [] else [GwProtocol]
  | Some _ => [GwProtocol]
  end.

(* data/__init__.py:88-111 get_global_settings for 'gateway': [attrs] are the names of global attributes *)
Definition global_settings (attrs : list string) (top : option val) (def : dict val) : option val :=
  match def with
  | [] => top
  | _ => let d := filter (fun kv => memS (fst kv) attrs) def in
         match top with
         | None => Some (VDict d)
         | Some (VDict t) => Some (merge (VDict d) (VDict t))
         | Some x => Some x
         end
  end.

(* gateway.py:137-155: gateway ids of links and VLANs, in this order; values that are not dictionaries are skipped *)
Fixpoint process_all (l : list (option val)) (v : idvar) : list gw_err * idvar :=
  match l with
  | [] => ([], v)
  | x :: r =>
      let (e1, v1) := match x with
                      | Some (VDict d) => process_gw_id false (dget "id" d) v
                      | _ => ([], v)
                      end in
      let (e2, v2) := process_all r v1 in (e1 ++ e2, v2)
  end.

(* gateway.py:124-155 module_init: [g] the global settings, then the gateway attributes of links and of VLANs *)
Definition gw_init (protos : list string) (g : option val) (links vlans : list (option val)) (v : idvar) : list gw_err * idvar :=
  match g with
  | Some (VDict (kv :: d)) =>
      let (e1, v1) := process_gw_id true (dget "id" (kv :: d)) v in
      let (e2, v2) := process_all (links ++ vlans) v1 in
      (check_gw_protocol protos (kv :: d) ++ e1 ++ e2, v2)
  | _ => ([GwType], v)
  end.

(* ---- links ---- *)

(* a node attached to a link; [gi_host]: its role is host, [gi_mod]: it uses the gateway module *)
Record gwi := mk_gwi { gi_node : string; gi_host : bool; gi_mod : bool; gi_gw : option val }.

Definition set_gw (i : gwi) (g : option val) : gwi := mk_gwi (gi_node i) (gi_host i) (gi_mod i) g.

(* gateway.py:168-184: the gateway attribute of the link after the scan, the copy_to_link flag, nodes whose setting is
   ignored with a warning, and the interfaces *)
Fixpoint gw_scan (lg : option val) (is : list gwi) : option val * bool * list string * list gwi :=
  match is with
  | [] => (lg, false, [], [])
  | i :: r =>
      match gi_gw i with
      | None | Some (VBool false) =>
          let '(lg', c, w, r') := gw_scan lg r in (lg', c, w, i :: r')
      | Some _ =>
          match lg with
          | Some (VBool false) =>
              let '(lg', c, w, r') := gw_scan lg r in (lg', c, gi_node i :: w, set_gw i None :: r')
          | Some _ =>
              let '(lg', c, w, r') := gw_scan lg r in (lg', c, w, i :: r')
          | None =>
              let '(lg', c, w, r') := gw_scan (Some (VBool true)) r in (lg', true, w, i :: r')
          end
      end
  end.

(* gateway.py:189-196: the gateway is enabled only where it was asked for *)
Definition gw_narrow (i : gwi) : gwi :=
  if gi_mod i then
    match gi_gw i with
    | None => set_gw i (Some (VBool false))
    | Some (VBool true) => set_gw i None
    | _ => i
    end
  else i.

(* gateway.py:219-241: checks of the gateway attributes of a link; the flag tells whether processing goes on *)
Definition gw_check (d : dict val) : bool * list gw_err :=
  let has k := match dget k d with Some v => truthy v | None => false end in
  if negb (has "id") then (false, [GwMissing "id"])
  else if negb (has "protocol") then (false, [GwMissing "protocol"])
  else match dget "id" d with
       | Some (VInt z) => (true, if (z =? -1)%Z then [GwBroadcast] else [])
       | _ => (false, [GwType])
       end.

(* gateway.py:246-248 *)
Definition gw_fill (lg : val) (i : gwi) : gwi :=
  match gi_gw i with Some (VBool true) => set_gw i (Some lg) | _ => i end.

(* gateway.py:157-248 link_pre_link_transform. [g]: global settings, a non-empty dictionary (module_init) *)
Definition gw_link_pre (protos : list string) (g : dict val) (lg : option val) (is : list gwi)
  : option val * list gwi * list string * list gw_err :=
  let '(lg1, c, w, is1) := gw_scan lg is in
  let is2 := if c then map gw_narrow is1 else is1 in
  match lg1 with
  | None => (None, is2, w, [])
  | Some (VBool false) => (None, map (fun i => set_gw i None) is2, w, [])
  | Some x =>
      let (lg2, e1) := match x with
                       | VDict d => (merge (VDict g) (VDict d), check_gw_protocol protos d)
                       | _ => (VDict g, [])
                       end in
      match lg2 with
      | VDict d2 => let (go, e2) := gw_check d2 in
                    (Some lg2, (if go then map (gw_fill lg2) is2 else is2), w, e1 ++ e2)
      | _ => (Some lg2, is2, w, e1)
      end
  end.

Section Addresses.
(* addressing.get_nth_ip_from_prefix(link.prefix[af],n), addressing.py:411-413; None: an exception *)
Variable nth : string -> Z -> option string.

(* links.py:371-385: the address families with a usable prefix, one after the other *)
Fixpoint gw_addresses (afs : list string) (id : val) (d : dict val) : dict val * list gw_err :=
  match afs with
  | [] => (d, [])
  | af :: r =>
      match (match id with VInt z => nth af z | _ => None end) with
      | Some a => gw_addresses r id (dset af (VStr a) d)
      | None => (d, [GwAddress af])
      end
  end.

(* links.py:365-391 set_fhrp_gateway (and get_gateway_id, 356-359) *)
Definition set_fhrp_gateway (afs : list string) (lg : option val) : option val * list gw_err :=
  match lg with
  | Some (VDict d) =>
      match dget "id" d with
      | Some id => if truthy id then let (d', e) := gw_addresses afs id d in (Some (VDict d'), e) else (lg, [])
      | None => (lg, [])
      end
  | _ => (lg, [])
  end.

(* log.AF_LIST, utils/log.py:25 *)
Definition gw_af_list : list string := ["ipv4"; "ipv6"].

(* links.py:1079-1081: copy addresses of the link gateway into interface data *)
Definition copy_afs (ld d : dict val) : dict val :=
  fold_left (fun acc af => match dget af ld with Some v => dset af v acc | None => acc end) gw_af_list d.

(* links.py:1071-1081, one interface; None: a python exception (a flag used as a dictionary) *)
Definition copy_gateway1 (lg : val) (i : gwi) : option gwi :=
  match lg with
  | VDict ld =>
      if gi_host i then Some (set_gw i (Some lg))
      else if negb (gi_mod i) then Some i
      else match gi_gw i with
           | Some (VBool false) => Some i
           | None => match copy_afs ld [] with
                     | [] => Some i
                     | d => Some (set_gw i (Some (VDict d)))
                     end
           | Some (VDict d) => Some (set_gw i (Some (VDict (copy_afs ld d))))
           | Some _ => match copy_afs ld [] with [] => Some i | _ => None end
           end
  | _ => if negb (gi_mod i) then Some i
         else match gi_gw i with Some (VBool false) => Some i | _ => None end
  end.

(* links.py:344-352 interface_data for the attribute gateway; links.py:845-849: it is used for nodes using the module
   (defaults/attributes.yml:72,75 exclude it otherwise) *)
Definition intf_gateway (lg : option val) (i : gwi) : option val :=
  if gi_mod i then
    match lg, gi_gw i with
    | Some g, None => Some g
    | Some (VDict a), Some (VDict b) => Some (merge (VDict a) (VDict b))
    | _, x => x
    end
  else gi_gw i.

Fixpoint gw_all {A B} (f : A -> option B) (l : list A) : option (list B) :=
  match l with
  | [] => Some []
  | x :: r => match f x, gw_all f r with Some y, Some r' => Some (y :: r') | _, _ => None end
  end.

(* links.py:1068-1081 copy_link_gateway *)
Definition copy_link_gateway (lg : option val) (is : list gwi) : option (list gwi) :=
  match lg with None => Some is | Some g => gw_all (copy_gateway1 g) is end.

(* The gateway part of the transformation of one link: modules.pre_link_transform, log.exit_on_error, links.transform
   (augment/main.py:80-83, links.py:1217-1232). The link hook is called when a node on the link uses the module
   (modules/__init__.py:496-506); the link is transformed only when no error was reported before.
   [afs]: address families for which the link has a prefix that is not a flag. The result: gateway of the link, gateways
   of node interfaces and nodes whose setting was ignored with a warning *)
Definition gw_link (protos : list string) (g : dict val) (afs : list string) (lg : option val) (is : list gwi)
  : result (list gw_err) (option val * list (option val) * list string) :=
  let '(lg1, is1, w, e) := if existsb gi_mod is then gw_link_pre protos g lg is else (lg, is, [], []) in
  match e with
  | _ :: _ => Err e
  | [] =>
      let (lg2, e2) := set_fhrp_gateway afs lg1 in
      match e2 with
      | _ :: _ => Err e2
      | [] => match copy_link_gateway lg2 is1 with
              | None => Err [GwCrash]
              | Some is2 => Ok (lg2, map (intf_gateway lg2) is2, w)
              end
      end
  end.
End Addresses.

(* ---- nodes ---- *)

(* an interface of a node: name, IPv4 address, gateway *)
Record gni := mk_gni { gn_name : string; gn_v4 : option val; gn_gw : option val }.

(* intf.gateway.protocol; validated to be a string *)
Definition gw_proto (v : val) : string := match lookup ["protocol"] v with Some (VStr s) => s | _ => "" end.

(* gateway.py:251-253 *)
Definition drop_false (i : gni) : gni :=
  match gn_gw i with Some (VBool false) => mk_gni (gn_name i) (gn_v4 i) None | _ => i end.

(* gateway.py:32-45 check_protocol_support: unsupported protocols, each of them once; [seen] is proto_list *)
Fixpoint unsupported (feat seen : list string) (is : list gni) : list string :=
  match is with
  | [] => []
  | i :: r =>
      match gn_gw i with
      | None => unsupported feat seen r
      | Some v => let p := gw_proto v in
                  if memS p seen then unsupported feat seen r
                  else (if memS p feat then [] else [p]) ++ unsupported feat (seen ++ [p]) r
      end
  end.

(* gateway.py:54-62 cleanup_unicast_ip *)
Definition clean_unicast (i : gni) : gni :=
  match gn_gw i with
  | Some v =>
      if truthy v && String.eqb (gw_proto v) "anycast" &&
         match lookup ["anycast"; "unicast"] v with Some (VBool false) => true | _ => false end
      then mk_gni (gn_name i) None (gn_gw i) else i
  | None => i
  end.

(* gateway.py:82-88: the attributes of an interface gateway; [nd]: node-level parameters *)
Definition clean_params (protos : list string) (nd : dict val) (d : dict val) : dict val :=
  let p := gw_proto (VDict d) in
  fold_left (fun acc k =>
               if negb (memS k protos) then acc
               else if negb (String.eqb k p) then dpop k acc
               else match dget k nd, dget k acc with
                    | Some n, Some v => dset k (merge n v) acc
                    | _, _ => acc
                    end) (dkeys d) d.

Definition clean_intf (protos : list string) (nd : dict val) (i : gni) : gni :=
  match gn_gw i with
  | Some (VDict d) => mk_gni (gn_name i) (gn_v4 i) (Some (VDict (clean_params protos nd d)))
  | _ => i
  end.

(* gateway.py:71-80: active protocols in the order of their first use *)
Fixpoint active_protos (acc : list string) (is : list gni) : list string :=
  match is with
  | [] => acc
  | i :: r => match gn_gw i with
              | None => active_protos acc r
              | Some v => active_protos (if memS (gw_proto v) acc then acc else acc ++ [gw_proto v]) r
              end
  end.

(* A node: gateway parameters (None: no such attribute), modules, interfaces *)
Record gnode := mk_gnode { gd_gw : option (dict val); gd_mods : list string; gd_ifs : list gni }.

(* modules/__init__.py:135-141 remove_module *)
Definition gw_remove (n : gnode) : gnode :=
  mk_gnode None (filter (fun m => negb (String.eqb m "gateway")) (gd_mods n))
           (map (fun i => mk_gni (gn_name i) (gn_v4 i) None) (gd_ifs n)).

(* gateway.py:250-273 node_post_transform; the flag: the 'inactive' warning is printed.
   Simplification: node-level parameters are taken to be empty when the node has none (the code would fail in line 87;
   default parameters are always copied into nodes using the module) *)
Definition gw_node (protos feat : list string) (n : gnode) : gnode * list gw_err * bool :=
  let is1 := map drop_false (gd_ifs n) in
  let n1 := mk_gnode (gd_gw n) (gd_mods n) is1 in
  match unsupported feat [] is1 with
  | (_ :: _) as e => (n1, map GwUnsupported e, false)
  | [] =>
      let is2 := map clean_unicast is1 in
      let act := active_protos [] is2 in
      let nd := match gd_gw n with Some d => d | None => [] end in
      let n2 := mk_gnode (match gd_gw n with
                          | Some d => Some (filter (fun kv => memS (fst kv) act) d)
                          | None => None
                          end) (gd_mods n) (map (clean_intf protos nd) is2) in
      match act with
      | _ :: _ => (n2, [], false)
      | [] => (gw_remove n2, [], true)
      end
  end.
