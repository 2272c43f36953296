(* Model of the DHCP module: netsim/modules/dhcp.py. Definitions only.
   The gateway addresses of links and VLANs (get_gateway_data) are given as data; get_intf_address, make_id and the
   control-plane endpoint of a server are arguments. *)
From Coq Require Import String ZArith Bool List.
From Verif Require Import Base.
Import ListNotations.

(* an address attribute: text ("dhcp" or an address), True, or something else *)
Inductive dval := DvStr (s : string) | DvTrue | DvOther.

Record dintf := mk_di {
  di_node : string;
  di_index : nat;                         (* ifindex *)
  di_addr : dict dval;                    (* ipv4 and ipv6 *)
  di_client : dict bool;                  (* dhcp.client *)
  di_mode : option string;                (* _vlan_mode *)
  di_server : list string;                (* dhcp.server: relay targets, empty when missing *)
  di_vrf : option string;                 (* dhcp.vrf *)
  di_vlan : option string;                (* vlan.name *)
  di_relay : dict (list string) }.        (* dhcp.relay *)

Definition set_addr (d : dict dval) (i : dintf) : dintf :=
  mk_di (di_node i) (di_index i) d (di_client i) (di_mode i) (di_server i) (di_vrf i) (di_vlan i) (di_relay i).
Definition set_client (d : dict bool) (i : dintf) : dintf :=
  mk_di (di_node i) (di_index i) (di_addr i) d (di_mode i) (di_server i) (di_vrf i) (di_vlan i) (di_relay i).
Definition set_relay (d : dict (list string)) (i : dintf) : dintf :=
  mk_di (di_node i) (di_index i) (di_addr i) (di_client i) (di_mode i) (di_server i) (di_vrf i) (di_vlan i) d.

(* log.AF_LIST *)
Definition AFS : list string := ["ipv4"; "ipv6"]%string.

Definition is_dhcp (o : option dval) : bool := match o with Some (DvStr s) => String.eqb s "dhcp" | _ => false end.
Definition is_some_true (o : option bool) : bool := match o with Some true => true | _ => false end.
Definition is_some_false (o : option bool) : bool := match o with Some false => true | _ => false end.
Definition bridged (m : option string) : bool := match m with Some s => memS s ["bridge"; "irb"]%string | None => false end.

(* data/__init__.py:37-47 append_to_list *)
Definition append_to_list (x : string) (l : list string) : list string := if memS x l then l else l ++ [x].

(* ---- before the link transformation ---- *)

Record pstate := mk_ps {
  ps_subnet : dict bool;                  (* link.dhcp.subnet *)
  ps_mods : dict (list string);           (* modules of the nodes *)
  ps_err : list (string * string) }.      (* node and address family *)

(* dhcp.py:359-361 *)
Definition activate (af : string) (i : dintf) (st : pstate) : pstate :=
  mk_ps (dset af true (ps_subnet st))
    (match dget (di_node i) (ps_mods st) with
     | Some m => dset (di_node i) (append_to_list "dhcp" m) (ps_mods st)
     | None => ps_mods st
     end) (ps_err st).

(* dhcp.py:343-361: one address family of an interface; [lc] is link.dhcp.client *)
Definition pre_af (lc : dict bool) (af : string) (i : dintf) (st : pstate) : dintf * pstate :=
  let isd := is_dhcp (dget af (di_addr i)) in
  let i1 := if isd then set_client (dset af true (di_client i)) (set_addr (dpop af (di_addr i)) i) else i in
  if isd && is_some_false (dget af lc) then
    (i1, mk_ps (ps_subnet st) (ps_mods st) (ps_err st ++ [(di_node i, af)]))
  else if is_some_true (dget af lc) && negb (is_some_false (dget af (di_client i1))) then
    if bridged (di_mode i1) then (i1, st)
    else let i2 := set_client (dset af true (di_client i1)) i1 in (i2, activate af i2 st)
  else if is_some_true (dget af (di_client i1)) then (i1, activate af i1 st)
  else (i1, st).

Fixpoint pre_afs (lc : dict bool) (afs : list string) (i : dintf) (st : pstate) : dintf * pstate :=
  match afs with
  | [] => (i, st)
  | af :: r => let '(i', st') := pre_af lc af i st in pre_afs lc r i' st'
  end.

(* dhcp.py:337-361 link_pre_transform *)
Fixpoint pre_intfs (lc : dict bool) (l : list dintf) (st : pstate) : list dintf * pstate :=
  match l with
  | [] => ([], st)
  | i :: r =>
      let '(i', st') := if dmem (di_node i) (ps_mods st) then pre_afs lc AFS i st else (i, st) in
      let '(r', st'') := pre_intfs lc r st' in
      (i' :: r', st'')
  end.

(* ---- device support ---- *)

Inductive relay_feature := RfNone | RfAll | RfSome (afs : list string).

Record dfeatures := mk_df {
  df_server : bool;
  df_client : list string;                (* address families with a true client feature *)
  df_routing : bool;                      (* features.dhcp.client.routing *)
  df_relay : relay_feature;               (* false, true, a dictionary *)
  df_vrf : bool }.

Record dnode := mk_dn {
  dn_server : bool;                       (* truth value of dhcp.server *)
  dn_vrfs : list string;                  (* names of the VRFs *)
  dn_vrf : option bool;                   (* dhcp.vrf *)
  dn_is_relay : bool;                     (* dhcp.relay *)
  dn_intf : list dintf }.

Inductive dhcp_error :=
| NotServer
| NoClient (k : nat) (af : string)
| NoRelay (k : nat)
| NoRelayAF (k : nat) (af : string)
| BadServer (k : nat) (srv : string)
| NoInterVRF (k : nat)
| NoVRF (k : nat) (vrf : string).

(* dhcp.py:36-55: the DHCP client on interface number k *)
Definition check_client (f : dfeatures) (node_server : bool) (k : nat) (i : dintf) : dintf * list dhcp_error :=
  match di_client i with
  | [] => (i, [])
  | _ :: _ =>
      if match di_server i with [] => node_server | _ => true end then (set_client [] i, [])
      else (i, flat_map (fun af => if dmem af (di_client i) && negb (memS af (df_client f)) then [NoClient k af] else []) AFS)
  end.

Fixpoint check_clients (f : dfeatures) (node_server : bool) (k : nat) (l : list dintf) : list dintf * list dhcp_error :=
  match l with
  | [] => ([], [])
  | i :: r =>
      let '(i', e) := check_client f node_server k i in
      let '(r', es) := check_clients f node_server (S k) r in
      (i' :: r', e ++ es)
  end.

(* dhcp.py:59-112: the relay on interface number k. The result is the errors that make the check fail, and the errors
   that do not. [is_server] tells whether a node is a DHCP server. *)
Definition check_relay (f : dfeatures) (is_server : string -> bool) (vrfs : list string) (k : nat) (i : dintf)
  : list dhcp_error * list dhcp_error :=
  match di_server i with
  | [] => ([], [])
  | srvs =>
      let e1 := match df_relay f with RfNone => [NoRelay k] | _ => [] end in
      let w := match df_relay f with
               | RfSome afs => flat_map (fun af => if dmem af (di_addr i) && negb (memS af afs) then [NoRelayAF k af] else []) AFS
               | _ => []
               end in
      let e2 := flat_map (fun s => if is_server s then [] else [BadServer k s]) srvs in
      let e3 := match di_vrf i with
                | Some EmptyString | None => []
                | Some v =>
                    (if df_vrf f then [] else [NoInterVRF k])
                    ++ (if String.eqb v "global" then [] else if memS v vrfs then [] else [NoVRF k v])
                end in
      (e1 ++ e2 ++ e3, w)
  end.

Fixpoint check_relays (f : dfeatures) (is_server : string -> bool) (vrfs : list string) (k : nat) (l : list dintf)
  : list dhcp_error * list dhcp_error :=
  match l with
  | [] => ([], [])
  | i :: r =>
      let '(e, w) := check_relay f is_server vrfs k i in
      let '(es, ws) := check_relays f is_server vrfs (S k) r in
      (e ++ es, w ++ ws)
  end.

Definition is_relay (i : dintf) : bool := match di_server i with [] => false | _ => true end.
Definition inter_vrf (i : dintf) : bool := match di_vrf i with Some EmptyString | None => false | Some _ => true end.

(* dhcp.py:20-114 check_protocol_support: the changed node, the result, and all errors *)
Definition check_protocol_support (f : dfeatures) (is_server : string -> bool) (n : dnode) : dnode * bool * list dhcp_error :=
  let e0 := if dn_server n && negb (df_server f) then [NotServer] else [] in
  let '(l1, e1) := check_clients f (dn_server n) 0 (dn_intf n) in
  let '(e2, w) := check_relays f is_server (dn_vrfs n) 0 l1 in
  let relay := existsb is_relay l1 in
  let vrf := if existsb (fun i => is_relay i && inter_vrf i) l1 && df_vrf f
             then match dn_vrf n with None => Some true | x => x end else dn_vrf n in
  (mk_dn (dn_server n) (dn_vrfs n) vrf (dn_is_relay n || relay) l1,
   match e0 ++ e1 ++ e2 with [] => true | _ => false end, e0 ++ e1 ++ e2 ++ w).

(* ---- relays ---- *)

Inductive relay_error := NoEndpoint (srv : string) | NoServerAF (srv af : string).

(* dhcp.py:281-301: the addresses of the relay targets in one address family. [ep] is the control-plane endpoint of
   a node (None: an empty dictionary), [addr] the get_intf_address function; unnumbered endpoints are left out of the
   model *)
Fixpoint relay_targets (ep : string -> option (dict dval)) (addr : string -> string) (af : string) (srvs : list string)
  : list string * list relay_error :=
  match srvs with
  | [] => ([], [])
  | s :: r =>
      let '(t, e) := relay_targets ep addr af r in
      match ep s with
      | None => (t, NoEndpoint s :: e)
      | Some d =>
          match dget af d with
          | Some (DvStr a) => (addr a :: t, e)
          | Some _ => (t, e)
          | None => (t, NoServerAF s af :: e)
          end
      end
  end.

(* dhcp.py:269-301 set_dhcp_relay; [ngb] are the dhcp.client settings of the neighbors *)
Definition set_dhcp_relay (ep : string -> option (dict dval)) (addr : string -> string) (ngb : list (dict bool)) (i : dintf)
  : dintf * list relay_error :=
  match di_server i with
  | [] => (i, [])
  | srvs =>
      fold_left (fun '(j, es) af =>
        if existsb (fun d => is_some_true (dget af d)) ngb then
          let '(t, e) := relay_targets ep addr af srvs in (set_relay (dset af t (di_relay j)) j, es ++ e)
        else (j, es)) AFS (i, [])
  end.

(* ---- after the transformation ---- *)

(* dhcp.py:375-379: one interface; DHCP clients lose their static addresses. Routing checks are left out. *)
Definition post_intf (i : dintf) : dintf :=
  set_addr (fold_left (fun d af => if is_some_true (dget af (di_client i)) then dpop af d else d) AFS (di_addr i)) i.

(* dhcp.py:370-379 for one node *)
Definition post_node (f : dfeatures) (is_server : string -> bool) (n : dnode) : dnode * list dhcp_error :=
  let '(n', ok, e) := check_protocol_support f is_server n in
  if ok then (mk_dn (dn_server n') (dn_vrfs n') (dn_vrf n') (dn_is_relay n') (map post_intf (dn_intf n')), e) else (n', e).

(* ---- address pools of DHCP servers ---- *)

Record dpool := mk_dp {
  dp_prefix : dict string;
  dp_gw : dict string;
  dp_excl : dict (list string);
  dp_name : option string;
  dp_vrf : option string;
  dp_active : bool }.

Definition empty_pool : dpool := mk_dp [] [] [] None None false.
Definition dp_get (pid : string) (ps : dict dpool) : dpool := match dget pid ps with Some p => p | None => empty_pool end.

Record dvlan := mk_dv {
  dv_name : string;
  dv_route : bool;                        (* mode: route *)
  dv_prefix : dict dval;
  dv_gw : dict string;                    (* gateway data *)
  dv_vrf : option string }.

Record dlink := mk_dl {
  dl_vlan : option string;                (* vlan.access *)
  dl_name : string;                       (* name or _linkname *)
  dl_vrf : option string;
  dl_subnet : list string;                (* keys of dhcp.subnet *)
  dl_prefix : dict dval;
  dl_gw : dict string;
  dl_intf : list dintf }.

Section Pools.
Variable make_id : string -> string.
Variable addr : string -> string.         (* get_intf_address *)

Definition p_prefix (af v : string) (p : dpool) := mk_dp (dset af v (dp_prefix p)) (dp_gw p) (dp_excl p) (dp_name p) (dp_vrf p) (dp_active p).
Definition p_gw (af v : string) (p : dpool) := mk_dp (dp_prefix p) (dset af v (dp_gw p)) (dp_excl p) (dp_name p) (dp_vrf p) (dp_active p).
Definition p_excl (af v : string) (p : dpool) :=
  mk_dp (dp_prefix p) (dp_gw p)
    (dset af (append_to_list v (match dget af (dp_excl p) with Some l => l | None => [] end)) (dp_excl p))
    (dp_name p) (dp_vrf p) (dp_active p).
Definition p_name (v : string) (p : dpool) := mk_dp (dp_prefix p) (dp_gw p) (dp_excl p) (Some v) (dp_vrf p) (dp_active p).
Definition p_vrf (v : string) (p : dpool) := mk_dp (dp_prefix p) (dp_gw p) (dp_excl p) (dp_name p) (Some v) (dp_active p).
Definition p_activate (p : dpool) := mk_dp (dp_prefix p) (dp_gw p) (dp_excl p) (dp_name p) (dp_vrf p) true.

Definition upd (pid : string) (g : dpool -> dpool) (ps : dict dpool) : dict dpool := dset pid (g (dp_get pid ps)) ps.

Definition vlan_pid (v : string) : string := make_id ("vlan_" ++ v)%string.

(* dhcp.py:148-164: one VLAN *)
Definition vlan_pool (ps : dict dpool) (v : dvlan) : dict dpool :=
  if dv_route v then ps
  else
    let pid := vlan_pid (dv_name v) in
    let ps1 := fold_left (fun q af =>
      let q1 := match dget af (dv_prefix v) with Some (DvStr s) => upd pid (p_prefix af s) q | _ => q end in
      match dget af (dv_gw v) with Some a => upd pid (p_gw af (addr a)) q1 | None => q1 end) AFS ps in
    match dv_vrf v with
    | Some x => if dmem pid ps1 then upd pid (p_vrf x) ps1 else ps1
    | None => ps1
    end.

(* dhcp.py:169-184: one SVI *)
Definition svi_pool (ps : dict dpool) (i : dintf) : dict dpool :=
  match di_vlan i with
  | None | Some EmptyString => ps
  | Some v =>
      let pid := vlan_pid v in
      if dmem pid ps then
        fold_left (fun q af => match dget af (di_addr i) with
                               | Some (DvStr a) => upd pid (p_excl af (addr a)) q
                               | _ => q
                               end) AFS ps
      else ps
  end.

(* dhcp.py:230-234: the DHCP client flag of the interface in node data; [nodes] are the interfaces of the nodes *)
Definition node_client (nodes : dict (list dintf)) (i : dintf) (af : string) : option bool :=
  match dget (di_node i) nodes with
  | None => None
  | Some l => match find (fun j => Nat.eqb (di_index i) (di_index j)) l with
              | None => None
              | Some j => Some (is_some_true (dget af (di_client j)))
              end
  end.

(* dhcp.py:223-237: the addresses of one link interface *)
Definition link_intf_pool (nodes : dict (list dintf)) (pid af : string) (ps : dict dpool) (i : dintf) : dict dpool :=
  match dget af (di_addr i) with
  | Some (DvStr a) =>
      match node_client nodes i af with
      | None | Some true => ps
      | Some false => upd pid (p_excl af (addr a)) ps
      end
  | _ => ps
  end.

(* dhcp.py:202-237: one address family of a link; the flag reports a prefix mismatch *)
Definition link_af_pool (nodes : dict (list dintf)) (l : dlink) (pid : string) (ps : dict dpool) (af : string)
  : dict dpool * list (string * string) :=
  if negb (memS af (dl_subnet l)) then (ps, [])
  else match dget af (dl_prefix l) with
       | Some (DvStr pfx) =>
           let '(ps1, e) :=
             match dget af (dp_prefix (dp_get pid ps)) with
             | Some old => (ps, if String.eqb old pfx then [] else [(pid, af)])
             | None => (upd pid (p_prefix af pfx) ps, [])
             end in
           let ps2 := match dget af (dl_gw l) with Some a => upd pid (p_gw af (addr a)) ps1 | None => ps1 end in
           (fold_left (link_intf_pool nodes pid af) (dl_intf l) ps2, e)
       | _ => (ps, [])
       end.

Definition link_pid (l : dlink) : string :=
  match dl_vlan l with
  | None | Some EmptyString => make_id (dl_name l)
  | Some v => vlan_pid v
  end.

(* dhcp.py:186-237: one link *)
Definition link_pool (nodes : dict (list dintf)) (ps : dict dpool) (l : dlink) : dict dpool * list (string * string) :=
  match dl_subnet l with
  | [] => (ps, [])
  | _ =>
      let pid := link_pid l in
      let ps1 := match dl_vlan l with
                 | None | Some EmptyString =>
                     let q := upd pid (p_name (dl_name l)) ps in
                     match dl_vrf l with Some x => upd pid (p_vrf x) q | None => q end
                 | Some _ => ps
                 end in
      let ps2 := upd pid p_activate ps1 in
      fold_left (fun '(q, e) af => let '(q', e') := link_af_pool nodes l pid q af in (q', e ++ e')) AFS (ps2, [])
  end.

Fixpoint link_pools (nodes : dict (list dintf)) (ps : dict dpool) (ls : list dlink) : dict dpool * list (string * string) :=
  match ls with
  | [] => (ps, [])
  | l :: r =>
      let '(ps1, e) := link_pool nodes ps l in
      let '(ps2, es) := link_pools nodes ps1 r in
      (ps2, e ++ es)
  end.

(* dhcp.py:143-247 build_topology_dhcp_pools: the active pools with their clean names, and prefix mismatches *)
Definition build_pools (vlans : list dvlan) (nodes : dict (list dintf)) (links : list dlink)
  : dict dpool * list (string * string) :=
  let ps1 := fold_left vlan_pool vlans [] in
  let ps2 := fold_left svi_pool (flat_map snd nodes) ps1 in
  let '(ps3, e) := link_pools nodes ps2 links in
  (map (fun '(pid, p) => (pid, match dp_name p with
                               | Some _ => p
                               | None => p_name pid p
                               end)) (filter (fun kv => dp_active (snd kv)) ps3), e).
End Pools.
