(* Model of routing policies, prefix lists, static route includes and route imports:
   netsim/modules/routing.py and netsim/modules/_routing.py. Definitions only. *)
From Coq Require Import String ZArith Bool List.
From Verif Require Import Base Box_Model.
Import ListNotations.
Open Scope Z_scope.

(* ---- routing objects (policies, prefix lists, AS path and community lists) ---- *)

(* An entry of a routing object; everything but the sequence number and the action is opaque. *)
Record raw_entry := mk_raw { rw_seq : option Z; rw_action : option string; rw_body : val }.
Record rentry := mk_rentry { re_seq : Z; re_action : string; re_body : val }.

(* routing.py:25-35 normalize_routing_entry *)
Definition normalize_routing_entry (e : raw_entry) (idx : nat) : rentry :=
  mk_rentry (match rw_seq e with Some s => s | None => (Z.of_nat idx + 1) * 10 end)
            (match rw_action e with Some a => a | None => "permit"%string end)
            (rw_body e).

(* routing.py:105-107 normalize_routing_object *)
Fixpoint normalize_from (idx : nat) (l : list raw_entry) : list rentry :=
  match l with
  | [] => []
  | e :: r => normalize_routing_entry e idx :: normalize_from (S idx) r
  end.
Definition normalize_routing_object (l : list raw_entry) : list rentry := normalize_from 0 l.

(* sorted(key=sequence): stable insertion sort *)
Fixpoint insert_seq (e : rentry) (l : list rentry) : list rentry :=
  match l with
  | [] => [e]
  | x :: r => if re_seq e <=? re_seq x then e :: l else x :: insert_seq e r
  end.
Fixpoint sort_seq (l : list rentry) : list rentry :=
  match l with
  | [] => []
  | e :: r => insert_seq e (sort_seq r)
  end.

(* Objects of one type on a node or in the topology; the value None is the placeholder (YAML null). *)
Definition robjects := dict (option (list rentry)).

Inductive import_result :=
| ImpError                                  (* referenced object does not exist *)
| ImpNone                                   (* node object not changed *)
| ImpList (l : list rentry).                (* new value of the node object *)

(* routing.py:222-255 import_routing_object. A topology object is a list (None is reported by
   normalize_routing_objects and stops the transformation). *)
Definition import_routing_object (pname : string) (node : robjects) (topo : dict (list rentry)) : import_result * robjects :=
  match dget pname node with
  | None | Some None =>
      match dget pname topo with
      | None => (ImpError, node)
      | Some l => (ImpList l, dset pname (Some l) node)
      end
  | Some (Some np) =>
      match dget pname topo with
      | None => (ImpNone, node)
      | Some tp =>
          match filter (fun e => negb (memZ (re_seq e) (map re_seq np))) tp with
          | [] => (ImpNone, node)
          | add => let l := sort_seq (np ++ add) in (ImpList l, dset pname (Some l) node)
          end
      end
  end.

(* ---- static route includes ---- *)

(* A static route entry: the name of the included list, the next hop and the rest of the attributes.
   The remove flag set on processed includes is the second component of a marked entry. *)
Record sroute := mk_sroute { sr_include : option string; sr_nexthop : option val; sr_body : val }.

(* routing.py:694-697: sr_entry + { nexthop: ... }. BoxList.append and the BoxList constructor convert
   dictionaries into new Box objects, so global entries are not modified by the remove flag. *)
Definition add_nexthop (nh : option val) (e : sroute) : sroute :=
  match nh with
  | None => e
  | Some v => mk_sroute (sr_include e)
                (Some (match sr_nexthop e with Some old => merge old v | None => v end)) (sr_body e)
  end.

(* routing.py:678-699: the entries processed in one pass: marked entries (true = remove), appended entries,
   names of missing lists, and whether an include was expanded *)
Fixpoint include_pass (lib : dict (list sroute)) (l : list sroute)
  : list (bool * sroute) * list sroute * list string * bool :=
  match l with
  | [] => ([], [], [], false)
  | e :: r =>
      match include_pass lib r with
      | (ms, app, errs, rq) =>
          match sr_include e with
          | None => ((false, e) :: ms, app, errs, rq)
          | Some name =>
              match dget name lib with
              | None => ((true, e) :: ms, app, name :: errs, rq)
              | Some inc => ((true, e) :: ms, map (add_nexthop (sr_nexthop e)) inc ++ app, errs, true)
              end
          end
      end
  end.

Inductive include_error := IncMissing (name : string) | IncDepth.

(* routing.py:654-710 process_static_route_includes for a list (routing.py:303-345
   include_global_static_routes has the same loop). [limit] is include_limit. *)
Fixpoint include_loop (limit : nat) (lib : dict (list sroute)) (l : list sroute) : list sroute * list include_error :=
  match include_pass lib l with
  | (ms, app, errs, rq) =>
      if rq then
        let next := map snd (filter (fun m => negb (fst m)) ms) ++ app in
        match limit with
        | O | S O => (next, map IncMissing errs ++ [IncDepth])
        | S lim => let (r, e) := include_loop lim lib next in (r, map IncMissing errs ++ e)
        end
      else (l, map IncMissing errs)
  end.

Definition process_static_route_includes (lib : dict (list sroute)) (l : list sroute) : list sroute * list include_error :=
  include_loop 20 lib l.

(* ---- prefix lists ---- *)

Inductive paf := V4 | V6.
Definition paf_eqb (a b : paf) : bool := match a, b with V4, V4 => true | V6, V6 => true | _, _ => false end.

(* min and max attributes of a prefix list entry: a value or values per address family *)
Inductive pminmax := MVal (z : Z) | MAf (v4 v6 : option Z).

Record pentry := mk_pentry {
  pe_seq : Z;
  pe_action : string;
  pe_v4 : option string;
  pe_v6 : option string;
  pe_pool : option string;
  pe_prefix : option string;
  pe_min : option pminmax;
  pe_max : option pminmax }.

(* ipv4 and ipv6 attributes of an address pool or a named prefix *)
Record pfx_data := mk_pfx { px_v4 : option string; px_v6 : option string }.

(* routing.py:455-471 expand_prefix_entry; a missing pool or prefix is an empty Box *)
Definition or_opt {A} (a b : option A) : option A := match a with Some x => Some x | None => b end.

Definition expand_prefix_entry (pools prefixes : dict pfx_data) (e : pentry) : pentry :=
  let extra1 := match pe_pool e with Some p => dget p pools | None => None end in
  let extra := match pe_prefix e with Some p => dget p prefixes | None => extra1 end in
  match extra with
  | None => mk_pentry (pe_seq e) (pe_action e) (pe_v4 e) (pe_v6 e) None None (pe_min e) (pe_max e)
  | Some x => mk_pentry (pe_seq e) (pe_action e) (or_opt (px_v4 x) (pe_v4 e)) (or_opt (px_v6 x) (pe_v6 e)) None None (pe_min e) (pe_max e)
  end.

Definition af_bits (af : paf) : Z := match af with V4 => 32 | V6 => 128 end.

(* routing.py:476-503 adjust_pfx_min_max: the new value and whether an error is reported *)
Definition adjust_pfx_min_max (af : paf) (m : option pminmax) : option pminmax * bool :=
  let check z := if (z <? 0) || (z >? af_bits af) then (m, true) else (Some (MVal z), false) in
  match m with
  | None => (None, false)
  | Some (MVal z) => check z
  | Some (MAf v4 v6) => match (match af with V4 => v4 | V6 => v6 end) with
                        | None => (m, false)
                        | Some z => check z
                        end
  end.

(* routing.py:508-517 create_pfx_af_entry; the number of reported errors *)
Definition create_pfx_af_entry (af : paf) (e : pentry) : pentry * nat :=
  let (mn, e1) := adjust_pfx_min_max af (pe_min e) in
  let (mx, e2) := adjust_pfx_min_max af (pe_max e) in
  (mk_pentry (pe_seq e) (pe_action e) (match af with V4 => pe_v4 e | V6 => None end) (match af with V4 => None | V6 => pe_v6 e end)
             (pe_pool e) (pe_prefix e) mn mx,
   ((if e1 then 1 else 0) + (if e2 then 1 else 0))%nat).

(* routing.py:522-525 create_empty_prefix_list *)
Definition create_empty_prefix_list (af : paf) : list pentry :=
  [mk_pentry 10 "deny" (match af with V4 => Some "0.0.0.0/0"%string | V6 => None end)
             (match af with V4 => None | V6 => Some "::/0"%string end) None None None None].

Definition in_af (af : paf) (e : pentry) : bool :=
  match (match af with V4 => pe_v4 e | V6 => pe_v6 e end) with Some _ => true | None => false end.

(* routing.py:530-547 expand_prefix_list: the per-AF list and the number of reported errors *)
Definition expand_prefix_list (pools prefixes : dict pfx_data) (af : paf) (l : list pentry) : list pentry * nat :=
  let r := map (create_pfx_af_entry af) (filter (in_af af) (map (expand_prefix_entry pools prefixes) l)) in
  (match map fst r with [] => create_empty_prefix_list af | x => x end, list_sum (map snd r)).

(* ---- numbers of AS path lists ---- *)

(* routing.py:549-553 number_aspath_acl *)
Definition number_aspath_acl (p_name : string) (nums : dict Z) : dict Z :=
  match dget p_name nums with
  | Some _ => nums
  | None => dset p_name (fold_left Z.max (map snd nums) 0 + 1) nums
  end.

(* ---- route imports in VRFs ---- *)

(* An import dictionary: source protocol -> auto flag (an entry created by netlab) *)
Definition imports := dict bool.

(* A routing protocol instance of a VRF, as far as imports are concerned *)
Definition vproto := option imports.           (* None: no import attribute *)

Record ivrf := mk_ivrf { iv_protos : dict vproto }.

(* _routing.py:499-506 is_vrf_protocol. [bgp_as]: node has bgp.as *)
Definition is_vrf_protocol (bgp_as : bool) (v : ivrf) (p : string) : bool :=
  String.eqb p "connected" || String.eqb p "static" || dmem p (iv_protos v) || (String.eqb p "bgp" && bgp_as).

Definition sp_name (p : string) : string := if String.eqb p "ripv2" then "rip"%string else p.

(* _routing.py:604-616: default imports of protocol [proto] in a VRF of a VRF-aware device. [node_protos]: protocols in node data *)
Definition default_imports (bgp_as : bool) (node_protos : list string) (proto : string) (v : ivrf) (vrf_list : list string) : imports :=
  fold_left (fun d s =>
    if is_vrf_protocol bgp_as v s || (String.eqb proto "bgp" && memS s node_protos)
    then dset (sp_name s) true d else d) vrf_list [].

Inductive import_error :=
| ImportNotVrfAware
| ImportCrash                (* UnboundLocalError: s_proto in the message, _routing.py:620-623 *)
| ImportInactive (rp : string).

(* _routing.py:587-622 process_imports, VRF part. [device]: Some vrf_aware when the device supports imports into
   the protocol. [seen]: s_proto is bound by an earlier iteration. Simplification: check_import_request is not
   modelled (user-configured imports are left as they are). *)
Fixpoint process_vrf_imports (bgp_as : bool) (node_protos : list string) (proto : string) (device : option bool)
    (vrf_list : list string) (seen : bool) (vs : dict ivrf) : dict ivrf * list import_error :=
  match vs with
  | [] => ([], [])
  | (k, v) :: r =>
      let aware := match device with Some b => b | None => false end in
      if negb (is_vrf_protocol bgp_as v proto)
      then let (r', e) := process_vrf_imports bgp_as node_protos proto device vrf_list seen r in ((k, v) :: r', e)
      else
        match dget proto (iv_protos v) with
        | Some (Some _) =>
            if aware
            then let (r', e) := process_vrf_imports bgp_as node_protos proto device vrf_list seen r in ((k, v) :: r', e)
            else if seen
                 then let (r', e) := process_vrf_imports bgp_as node_protos proto device vrf_list seen r in
                      ((k, v) :: r', ImportNotVrfAware :: e)
                 else ((k, v) :: r, [ImportCrash])
        | _ =>
            if aware then
              let d := default_imports bgp_as node_protos proto v vrf_list in
              let v' := mk_ivrf (dset proto (match d with [] => None | _ => Some d end) (iv_protos v)) in
              let (r', e) := process_vrf_imports bgp_as node_protos proto device vrf_list
                               (match vrf_list with [] => seen | _ => true end) r in
              ((k, v') :: r', e)
            else let (r', e) := process_vrf_imports bgp_as node_protos proto device vrf_list seen r in
                 ((k, mk_ivrf (dset proto (match dget proto (iv_protos v) with Some x => x | None => None end) (iv_protos v))) :: r', e)
        end
  end.

(* _routing.py:635-656 remove_vrf_imports, for one VRF *)
Fixpoint remove_imports (rps : list string) (proto : string) (v : ivrf) : ivrf * list import_error :=
  match rps with
  | [] => (v, [])
  | rp :: r =>
      match dget rp (iv_protos v) with
      | Some (Some imp) =>
          match dget proto imp with
          | Some true => remove_imports r proto (mk_ivrf (dset rp (Some (dpop proto imp)) (iv_protos v)))
          | Some false => let (v', e) := remove_imports r proto v in (v', ImportInactive rp :: e)
          | None => remove_imports r proto v
          end
      | _ => remove_imports r proto v
      end
  end.

Definition routing_protocols : list string := ["bgp"; "ospf"; "isis"; "ripv2"; "eigrp"]%string.

(* _routing.py:289-290: the protocol is not active in the VRF *)
Definition deactivate (proto : string) (v : ivrf) : ivrf * list import_error :=
  let (v', e) := remove_imports routing_protocols proto v in (mk_ivrf (dpop proto (iv_protos v')), e).
