(* Model of BGP sessions, route reflector clusters, activation of address families, the AS list and
   EBGP link roles (netsim/modules/bgp.py). Definitions only.
   Simplifications: node and interface data are reduced to the attributes used to build sessions;
   device features are booleans of the node; interface addresses are host addresses (the prefix
   length removed by get_intf_address is left out); bgp.sessions and bgp.activate have passed
   validate_bgp_sessions; the BGP attributes of the neighbor interface copied into neighbor data
   (other than local_as) and the missing-IGP warning are left out. *)
From Coq Require Import String Ascii ZArith Bool List.
From Verif Require Import Base.
Import ListNotations.
Open Scope Z_scope.

(* an interface address: True/False or an address *)
Inductive baddr := ABool (b : bool) | AAddr (s : string).
Record bafs := mk_afs { a_v4 : option baddr; a_v6 : option baddr }.
Definition no_afs : bafs := mk_afs None None.

Inductive stype := Ibgp | Ebgp | LocalasIbgp.
Definition stype_eqb (a b : stype) : bool :=
  match a, b with
  | Ibgp, Ibgp => true
  | Ebgp, Ebgp => true
  | LocalasIbgp, LocalasIbgp => true
  | _, _ => false
  end.
Definition mem_stype (t : stype) (l : list stype) : bool := existsb (stype_eqb t) l.

(* bgp.sessions and bgp.activate: session types per address family *)
Record bsess := mk_bsess { s_v4 : list stype; s_v6 : list stype }.

(* bgp.py:405-408 BGP_DEFAULT_SESSIONS *)
Definition default_sessions : bsess := mk_bsess [Ibgp; Ebgp; LocalasIbgp] [Ibgp; Ebgp; LocalasIbgp].

(* a member of interface.neighbors *)
Record bngb := mk_bngb {
  ni_node : string;
  ni_bgp_off : bool;                   (* bgp: False *)
  ni_local_as : option Z;              (* bgp.local_as *)
  ni_af : bafs
}.

Record bintf := mk_bintf {
  bi_ifindex : Z;
  bi_bgp_off : bool;
  bi_local_as : option Z;
  bi_af : bafs;
  bi_vrf : option string;
  bi_ngbs : list bngb
}.

Record bfeatures := mk_bfeatures {
  bf_local_as : bool; bf_vrf_local_as : bool; bf_local_as_ibgp : bool; bf_ipv6_lla : bool; bf_rfc8950 : bool
}.

Record bnode := mk_bnode {
  bn_bgp : bool;                       (* 'bgp' in node *)
  bn_as : option Z;
  bn_local_as : option Z;
  bn_rr : option bool;
  bn_router_id : string;
  bn_cluster : option string;          (* bgp.rr_cluster_id *)
  bn_loopback : option bafs;
  bn_daemon : bool;
  bn_intfs : list bintf;
  bn_sessions : option bsess;
  bn_vrf_off : list string;            (* VRFs with bgp: False *)
  bn_features : bfeatures
}.

Definition blab := dict bnode.

(* an entry of bgp.neighbors *)
Record bneighbor := mk_bneighbor {
  nb_name : string;
  nb_as : option Z;
  nb_type : stype;
  nb_v4 : option baddr;
  nb_v6 : option baddr;
  nb_rr : option bool;
  nb_ifindex : option Z;
  nb_local_as : option Z;
  nb_local_if : bool;
  nb_rfc8950 : bool
}.

Inductive bgp_error :=
| ErrLocalAs (ifindex : Z)             (* bgp.py:229-234 *)
| ErrVrfLocalAs (ifindex : Z)          (* bgp.py:235-240 *)
| ErrV4Unnum (ngb : string)            (* bgp.py:281-287 *)
| ErrV6Lla (ngb : string)              (* bgp.py:289-295 *)
| ErrNoLla (ifindex : Z)               (* bgp.py:306-311 *)
| ErrNoRfc8950 (ifindex : Z)           (* bgp.py:315-320 *)
| ErrLocalIbgp (ngb : string).         (* bgp.py:331-337 *)

(* "a or b" on AS numbers: zero is false *)
Definition or_as (a b : option Z) : option Z :=
  match a with Some (Zpos p) => Some (Zpos p) | Some (Zneg p) => Some (Zneg p) | _ => b end.

Definition is_rr (n : bnode) : bool := match bn_rr n with Some true => true | _ => false end.

(* n.bgp.as == asn, both could be missing *)
Definition opt_z_eqb (a b : option Z) : bool :=
  match a, b with Some x, Some y => x =? y | None, None => true | _, _ => false end.

(* bgp.py:85-88 find_bgp_rr *)
Definition find_bgp_rr (asn : option Z) (lab : blab) : blab :=
  filter (fun kn : string * bnode => bn_bgp (snd kn) && opt_z_eqb (bn_as (snd kn)) asn && is_rr (snd kn)) lab.

(* bgp.py:98-113 bgp_neighbor *)
Definition bgp_neighbor (name : string) (n : bnode) (intf : bafs) (t : stype) (s : bsess)
  (rr : option bool) (ifindex local_as : option Z) (local_if rfc8950 : bool) : option bneighbor :=
  let v4 := if mem_stype t (s_v4 s) then a_v4 intf else None in
  let v6 := if mem_stype t (s_v6 s) then a_v6 intf else None in
  match v4, v6 with
  | None, None => None
  | _, _ => Some (mk_bneighbor name (bn_as n) t v4 v6 rr ifindex local_as local_if rfc8950)
  end.

(* bgp.py:134-141 get_remote_ibgp_endpoint *)
Definition get_remote_ibgp_endpoint (n : bnode) : bafs :=
  match bn_loopback n with
  | Some a => a
  | None => if bn_daemon n then match bn_intfs n with i :: _ => bi_af i | [] => no_afs end else no_afs
  end.

(* one IBGP neighbor (bgp.py:160-166 and 173-179) *)
Definition ibgp_neighbor (s : bsess) (kn : string * bnode) : list bneighbor :=
  match bgp_neighbor (fst kn) (snd kn) (get_remote_ibgp_endpoint (snd kn)) Ibgp s (bn_rr (snd kn)) None None false false with
  | Some x => [x]
  | None => []
  end.

(* bgp.py:149-179 build_ibgp_sessions *)
Definition build_ibgp_sessions (name : string) (node : bnode) (s : bsess) (lab : blab) : list bneighbor :=
  let rrlist := find_bgp_rr (bn_as node) lab in
  match rrlist, is_rr node with
  | _ :: _, false =>
      flat_map (ibgp_neighbor s) (filter (fun kn : string * bnode => negb (String.eqb (fst kn) name)) rrlist)
  | _, _ =>
      flat_map (ibgp_neighbor s) (filter (fun kn : string * bnode =>
        bn_bgp (snd kn) && opt_z_eqb (bn_as (snd kn)) (bn_as node) && negb (String.eqb (fst kn) name)) lab)
  end.

Definition is_true (o : option baddr) : bool := match o with Some (ABool true) => true | _ => false end.
Definition is_addr (o : option baddr) : bool := match o with Some (AAddr _) => true | _ => false end.
Definition has_af (a : bafs) : bool := match a_v4 a, a_v6 a with None, None => false | _, _ => true end.

(* the AS used by a node on an interface (bgp.py:222) *)
Definition node_local_as (node : bnode) (l : bintf) : option Z :=
  or_as (bi_local_as l) (or_as (bn_local_as node) (bn_as node)).

(* bgp.py:252-257: Python raises an exception when the interface has bgp: False *)
Definition neighbor_local_as (nb : bnode) (ng : bngb) : option Z :=
  if ni_bgp_off ng then bn_as nb else or_as (ni_local_as ng) (or_as (bn_local_as nb) (bn_as nb)).

(* where the session goes: the VRF of the interface or None *)
Definition placed := (option string * bneighbor)%type.

(* bgp.py:242-348 one neighbor on an interface; [v6] is the current value of l.ipv6 *)
Definition ebgp_one (lab : blab) (node : bnode) (s : bsess) (l : bintf) (v6 : option baddr) (ng : bngb)
  : option baddr * list placed * list bgp_error :=
  if negb (has_af (ni_af ng)) then (v6, [], []) else
  match dget (ni_node ng) lab with
  | None => (v6, [], [])
  | Some nb =>
      match or_as (neighbor_local_as nb ng) None with
      | None => (v6, [], [])
      | Some nla =>
          if opt_z_eqb (bn_as node) (bn_as nb) && opt_z_eqb (node_local_as node l) (Some nla) then (v6, [], [])
          else
            let v4 := a_v4 (bi_af l) in
            let lla := is_true v6 && is_true (a_v6 (ni_af ng)) in
            let num6 := is_addr v6 && is_addr (a_v6 (ni_af ng)) in
            let unnum4 := is_true v4 && is_true (a_v4 (ni_af ng)) in
            let rfc8950 := unnum4 && num6 in
            if is_true v4 && negb unnum4 then (v6, [], [ErrV4Unnum (ni_node ng)])
            else if is_true v6 && negb lla then (v6, [], [ErrV6Lla (ni_node ng)])
            else
              let lla' := lla || (unnum4 && negb num6) in
              let v6' := if unnum4 && negb num6 then match v6 with None => Some (ABool true) | x => x end else v6 in
              if lla' && negb (bf_ipv6_lla (bn_features node)) then (v6', [], [ErrNoLla (bi_ifindex l)])
              else if rfc8950 && negb (bf_rfc8950 (bn_features node)) then (v6', [], [ErrNoRfc8950 (bi_ifindex l)])
              else
                let las := or_as (bi_local_as l) (bn_local_as node) in
                let t := if opt_z_eqb (Some nla) (node_local_as node l) then LocalasIbgp else Ebgp in
                if match t with LocalasIbgp => negb (bf_local_as_ibgp (bn_features node)) | _ => false end
                then (v6', [], [ErrLocalIbgp (ni_node ng)])
                else
                  match bgp_neighbor (ni_node ng) nb (ni_af ng) t s None (Some (bi_ifindex l)) las lla'
                          ((lla' && unnum4) || rfc8950) with
                  | None => (v6', [], [])
                  | Some x =>
                      let y := mk_bneighbor (nb_name x) (Some nla) (nb_type x) (nb_v4 x) (nb_v6 x) (nb_rr x)
                                 (nb_ifindex x) (nb_local_as x) (nb_local_if x) (nb_rfc8950 x) in
                      match bi_vrf l with
                      | None => (v6', [(None, y)], [])
                      | Some v => (v6', if memS v (bn_vrf_off node) then [] else [(Some v, y)], [])
                      end
                  end
      end
  end.

(* bgp.py:242-348 the loop over neighbors *)
Fixpoint ebgp_ngbs (lab : blab) (node : bnode) (s : bsess) (l : bintf) (v6 : option baddr) (ngs : list bngb)
  : list placed * list bgp_error :=
  match ngs with
  | [] => ([], [])
  | ng :: r =>
      let '(v6', x, e) := ebgp_one lab node s l v6 ng in
      let (y, e') := ebgp_ngbs lab node s l v6' r in
      (x ++ y, e ++ e')
  end.

(* bgp.py:217-240 one interface *)
Definition ebgp_intf (lab : blab) (node : bnode) (s : bsess) (l : bintf) : list placed * list bgp_error :=
  if bi_bgp_off l then ([], [])
  else if negb (has_af (bi_af l)) then ([], [])
  else
    let other := negb (opt_z_eqb (bn_as node) (node_local_as node l)) in
    if other && negb (bf_local_as (bn_features node)) then ([], [ErrLocalAs (bi_ifindex l)])
    else if other && (match bi_vrf l with Some v => negb (String.eqb v EmptyString) | None => false end)
            && negb (bf_vrf_local_as (bn_features node)) then ([], [ErrVrfLocalAs (bi_ifindex l)])
    else ebgp_ngbs lab node s l (a_v6 (bi_af l)) (bi_ngbs l).

(* bgp.py:210-348 build_ebgp_sessions *)
Fixpoint build_ebgp_sessions (lab : blab) (node : bnode) (s : bsess) (ls : list bintf) : list placed * list bgp_error :=
  match ls with
  | [] => ([], [])
  | l :: r =>
      let (x, e) := ebgp_intf lab node s l in
      let (y, e') := build_ebgp_sessions lab node s r in
      (x ++ y, e ++ e')
  end.

Definition node_sessions (n : bnode) : bsess := match bn_sessions n with Some s => s | None => default_sessions end.

(* bgp.py:410-424 build_bgp_sessions: global and VRF sessions of a node *)
Definition build_bgp_sessions (lab : blab) (name : string) (node : bnode) : list placed * list bgp_error :=
  let s := node_sessions node in
  let (x, e) := build_ebgp_sessions lab node s (bn_intfs node) in
  (map (fun y => (None, y)) (build_ibgp_sessions name node s lab) ++ x, e).

(* node.bgp.neighbors *)
Definition global_neighbors (l : list placed) : list bneighbor :=
  flat_map (fun p : placed => match fst p with None => [snd p] | Some _ => [] end) l.

(* ---- address families ---- *)

(* bgp.py:428-432: node.bgp.ipv4 and node.bgp.ipv6 after sessions were built; [flag] is the configured value *)
Definition af_flag (pick : bneighbor -> option baddr) (l : list bneighbor) (flag : bool) : bool :=
  if existsb (fun x => match pick x with Some _ => true | None => false end) l then true else flag.

(* bgp.py:357-361 activate_bgp_default_af for one neighbor and address family: None when the neighbor
   has no session in that address family. Lines 447-448 test for 'ibgp' among the address families of
   bgp.activate and have no effect. *)
Definition activate_af (flag : bool) (types : list stype) (pick : bneighbor -> option baddr) (x : bneighbor) : option bool :=
  match pick x with
  | None => None
  | Some _ => Some (flag && mem_stype (nb_type x) types)
  end.

(* ---- route reflector clusters ---- *)

(* comparison of Python strings *)
Fixpoint str_leb (a b : string) : bool :=
  match a, b with
  | EmptyString, _ => true
  | String _ _, EmptyString => false
  | String x r, String y q =>
      if Ascii.eqb x y then str_leb r q else (Ascii.N_of_ascii x <=? Ascii.N_of_ascii y)%N
  end.

(* min() on a list of strings *)
Fixpoint str_min (l : list string) : option string :=
  match l with
  | [] => None
  | x :: r => match str_min r with None => Some x | Some m => if str_leb x m then Some x else Some m end
  end.

(* bgp.py:370-396 build_bgp_rr_clusters: the cluster id of a node. The code iterates over the set of
   AS numbers; every route reflector belongs to exactly one of them. *)
Definition rr_cluster (lab : blab) (n : bnode) : option string :=
  match bn_as n, bn_bgp n && is_rr n, bn_cluster n with
  | Some a, true, None =>
      match str_min (flat_map (fun kn : string * bnode =>
                       match bn_cluster (snd kn) with None => [bn_router_id (snd kn)] | Some _ => [] end)
                     (find_bgp_rr (Some a) lab)) with
      | Some i => Some i
      | None => Some (bn_router_id n)
      end
  | _, _, c => c
  end.

(* ---- bgp.as_list ---- *)

Record as_entry := mk_as_entry { ae_members : list string; ae_rr : list string }.

(* node_data: AS number and route reflector flag. default_box inserts an empty entry when a missing
   key is read. *)
Record as_data := mk_as_data { ad_as : option Z; ad_rr : bool }.

Inductive as_error :=
| AsTwice (n : string)                 (* bgp.py:546-551 *)
| AsNotMember (n : string)             (* bgp.py:555-560 *)
| AsMismatch (n : string).             (* bgp.py:566-571 *)

Definition nd_get (n : string) (d : dict as_data) : as_data :=
  match dget n d with Some x => x | None => mk_as_data None false end.

(* bgp.py:545-552 *)
Fixpoint as_members (asn : Z) (l : list string) (d : dict as_data) : dict as_data * list as_error :=
  match l with
  | [] => (d, [])
  | n :: r =>
      match ad_as (nd_get n d) with
      | Some _ => let (d', e) := as_members asn r d in (d', AsTwice n :: e)
      | None => as_members asn r (dset n (mk_as_data (Some asn) (ad_rr (nd_get n d))) d)
      end
  end.

(* bgp.py:554-561 *)
Fixpoint as_rrs (asn : Z) (l : list string) (d : dict as_data) : dict as_data * list as_error :=
  match l with
  | [] => (d, [])
  | n :: r =>
      if opt_z_eqb (ad_as (nd_get n d)) (Some asn)
      then as_rrs asn r (dset n (mk_as_data (ad_as (nd_get n d)) true) d)
      else let (d', e) := as_rrs asn r (dset n (nd_get n d) d) in (d', AsNotMember n :: e)
  end.

(* bgp.py:543-561 *)
Fixpoint as_list_data (l : list (Z * as_entry)) (d : dict as_data) : dict as_data * list as_error :=
  match l with
  | [] => (d, [])
  | (asn, a) :: r =>
      let (d1, e1) := as_members asn (ae_members a) d in
      let (d2, e2) := as_rrs asn (ae_rr a) d1 in
      let (d3, e3) := as_list_data r d2 in
      (d3, e1 ++ e2 ++ e3)
  end.

(* bgp.as and bgp.rr of a node *)
Record as_node := mk_as_node { an_as : option Z; an_rr : option bool }.

(* bgp.py:563-573: node.bgp = node_data[name] + node.bgp *)
Definition as_apply (d : dict as_data) (kn : string * as_node) : (string * as_node) * list as_error :=
  match dget (fst kn) d with
  | None => (kn, [])
  | Some x =>
      match or_as (an_as (snd kn)) None with
      | Some a =>
          if opt_z_eqb (Some a) (ad_as x)
          then ((fst kn, mk_as_node (Some a) (match an_rr (snd kn) with None => if ad_rr x then Some true else None | v => v end)), [])
          else (kn, [AsMismatch (fst kn)])
      | None =>
          ((fst kn, mk_as_node (match an_as (snd kn) with None => ad_as x | v => v end)
                               (match an_rr (snd kn) with None => if ad_rr x then Some true else None | v => v end)), [])
      end
  end.

(* bgp.py:522-573 process_as_list *)
Definition process_as_list (l : list (Z * as_entry)) (nodes : dict as_node) : dict as_node * list as_error :=
  let (d, e) := as_list_data l [] in
  let r := map (as_apply d) nodes in
  (map fst r, e ++ flat_map snd r).

(* ---- EBGP link role ---- *)

(* bgp.py:610-624 ebgp_role_link: the role of a link given the AS numbers of attached nodes *)
Definition distinct_as (l : list (option Z)) : list Z :=
  fold_left (fun acc a => match or_as a None with Some x => if memZ x acc then acc else acc ++ [x] | None => acc end) l [].

Definition ebgp_role_link (role : option string) (asns : list (option Z)) (ebgp_role : string) : option string :=
  match role with
  | Some (String c s) => Some (String c s)
  | _ => if (1 <? Z.of_nat (length (distinct_as asns))) then Some ebgp_role else role
  end.
