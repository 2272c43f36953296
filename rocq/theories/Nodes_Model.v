(* Model of node and link attributes computed around the creation of interfaces: MTU values, static routes of
   hosts, daemon configuration files (netsim/augment/nodes.py), link types and roles, address families of nodes
   and unnumbered interfaces (netsim/augment/links.py). Definitions only. *)
From Coq Require Import String Ascii ZArith Bool List.
From Verif Require Import Base.
From Verif Require Extra_Model.
Import ListNotations.
Open Scope Z_scope.

(* ---- MTU ---- *)

(* device features used by the MTU code: the "initial" feature dictionary *)
Record mtu_features := mk_mf {
  mf_system : bool;                 (* truth value of system_mtu *)
  mf_min_phy : option Z;
  mf_min : option Z;
  mf_max : option Z }.

Record mintf := mk_mi {
  mi_type : option string;
  mi_mtu : option Z;
  mi_ipv6 : bool;                   (* 'ipv6' in intf *)
  mi_use_ip : bool }.               (* _use_ip_mtu *)

Definition mi_set_mtu (m : option Z) (i : mintf) : mintf := mk_mi (mi_type i) m (mi_ipv6 i) (mi_use_ip i).

(* nodes.py:322-340 augment_node_system_data for integer values: the lab-wide MTU is copied into nodes without one *)
Definition system_mtu_default (lab node : option Z) : option Z :=
  match lab with
  | None => node
  | Some m => match node with None => Some m | Some n => Some n end
  end.

Definition opt_type_is (t : string) (o : option string) : bool :=
  match o with Some x => String.eqb t x | None => false end.

(* links.py:321-332 add_node_interface: the MTU part *)
Definition add_interface_mtu (f : mtu_features) (node : option Z) (i : mintf) : mintf :=
  let i1 :=
    match node with
    | Some m =>
        if m =? 0 then i
        else match mi_mtu i with
             | Some x => if mf_system f && (m =? x) then mi_set_mtu None i else i
             | None => if mf_system f then i else mi_set_mtu (Some m) i
             end
    | None => i
    end in
  if opt_type_is "loopback" (mi_type i1) then mi_set_mtu None i1 else i1.

Inductive mtu_error := NodeBelowPhy | NodeBelowMin | NodeBelowV6 | NodeAboveMax
                     | IntfAboveMax (k : nat) | IntfBelowMin (k : nat) | IntfBelowV6 (k : nat).

(* a feature that is present and larger (smaller) than the MTU *)
Definition below (m : Z) (limit : option Z) : bool := match limit with Some l => m <? l | None => false end.
Definition above (m : Z) (limit : option Z) : bool := match limit with Some l => l <? m | None => false end.

(* nodes.py:563-581: the system MTU of a node; [v6] tells whether the node uses IPv6 *)
Definition node_mtu_errors (f : mtu_features) (v6 : bool) (m : Z) : list mtu_error :=
  (if below m (mf_min_phy f) then [NodeBelowPhy]
   else if below m (mf_min f) then [NodeBelowMin]
   else if v6 && (m <? 1280) then [NodeBelowV6] else [])
  ++ (if above m (mf_max f) then [NodeAboveMax] else []).

(* nodes.py:583-606: interface number k; [sys] is the system MTU *)
Definition intf_mtu (f : mtu_features) (sys : option Z) (k : nat) (i : mintf) : mintf * list mtu_error :=
  match mi_mtu i with
  | None => (i, [])
  | Some x =>
      if match sys with Some m => x =? m | None => false end then (mi_set_mtu None i, [])
      else
        let e := (if above x (mf_max f) then [IntfAboveMax k] else [])
                 ++ (if below x (mf_min f) then [IntfBelowMin k]
                     else if mi_ipv6 i && (x <? 1280) then [IntfBelowV6 k] else []) in
        (if below x (mf_min_phy f) then mk_mi (mi_type i) (mi_mtu i) (mi_ipv6 i) true else i, e)
  end.

Fixpoint intf_mtus (f : mtu_features) (sys : option Z) (k : nat) (l : list mintf) : list mintf * list mtu_error :=
  match l with
  | [] => ([], [])
  | i :: r =>
      let '(i', e) := intf_mtu f sys k i in
      let '(r', es) := intf_mtus f sys (S k) r in
      (i' :: r', e ++ es)
  end.

(* nodes.py:561-606 cleanup_mtu *)
Definition cleanup_mtu (f : mtu_features) (v6 : bool) (node : option Z) (l : list mintf) : list mintf * list mtu_error :=
  let sys := if mf_system f then node else None in
  let e := match sys with Some m => node_mtu_errors f v6 m | None => [] end in
  let '(l', es) := intf_mtus f sys 0%nat l in
  (l', e ++ es).

(* ---- address families of a node ---- *)

Record anode := mk_an {
  an_loopback : list string;              (* address families of the loopback interface *)
  an_intf : list (list string);           (* address families of the interfaces *)
  an_af : dict bool }.

(* links.py:1086-1098 set_node_af for one address family: the inner "continue" does not leave the interface loop *)
Definition set_one_af (af : string) (n : anode) : dict bool :=
  if memS af (an_loopback n) then dset af true (an_af n)
  else fold_left (fun d l => if memS af l then dset af true d else d) (an_intf n) (an_af n).

(* links.py:1086-1098 set_node_af for one node *)
Definition set_node_af (n : anode) : anode :=
  fold_left (fun m af => mk_an (an_loopback m) (an_intf m) (set_one_af af m)) ["ipv4"; "ipv6"]%string n.

(* ---- static routes of hosts ---- *)

Record srv_intf := mk_si {
  si_server : bool;                       (* truth value of dhcp.server: a DHCP relay *)
  si_client : list string }.              (* address families with a true dhcp.client flag *)

(* A static route: its keys and values *)
Definition sroute := dict string.

Record hnode := mk_hn {
  hn_host : bool;                         (* role: host *)
  hn_af : list string;                    (* keys of af *)
  hn_use_ra : bool;                       (* features.initial.ipv6_use_ra *)
  hn_server : bool;                       (* truth value of dhcp.server *)
  hn_intf : list srv_intf;
  hn_static : option (list sroute);       (* routing.static *)
  hn_module : list string }.

Inductive af_value := AvStr (s : string) | AvOther.

(* nodes.py:447-461 default_static_route_list; a pool is its name and its ipv4 and ipv6 values. Only the prefix is
   kept in the generated route *)
Definition pool_routes (p : dict af_value) : list sroute :=
  flat_map (fun af => match dget af p with
                      | Some (AvStr s) => [[(af, s); ("_skip_missing", "True"); ("nexthop", "gateway")]]%string
                      | _ => []
                      end) ["ipv4"; "ipv6"]%string.

Definition default_static_route_list (pools : dict (dict af_value)) : list sroute :=
  flat_map (fun '(name, p) => if memS name ["mgmt"; "router_id"]%string then [] else pool_routes p) pools.

Inductive host_error := ValueError.       (* list.remove(x): x not in list *)

(* list.remove *)
Fixpoint list_remove (x : string) (l : list string) : result host_error (list string) :=
  match l with
  | [] => Err ValueError
  | y :: r => if String.eqb x y then Ok r
              else match list_remove x r with Ok r' => Ok (y :: r') | Err e => Err e end
  end.

(* nodes.py:493-497: the interfaces of a node for one address family *)
Fixpoint remove_clients (af : string) (l : list srv_intf) (afs : list string) : result host_error (list string) :=
  match l with
  | [] => Ok afs
  | i :: r =>
      if si_server i then remove_clients af r afs
      else if memS af (si_client i) then
        match list_remove af afs with
        | Ok afs' => remove_clients af r afs'
        | Err e => Err e
        end
      else remove_clients af r afs
  end.

(* nodes.py:490-497: [todo] is the copy of the list *)
Fixpoint remove_dhcp (n : hnode) (todo afs : list string) : result host_error (list string) :=
  match todo with
  | [] => Ok afs
  | af :: r =>
      if hn_server n then remove_dhcp n r afs
      else match remove_clients af (hn_intf n) afs with
           | Ok afs' => remove_dhcp n r afs'
           | Err e => Err e
           end
  end.

(* data/__init__.py:37-47 append_to_list *)
Definition append_to_list (x : string) (l : list string) : list string := if memS x l then l else l ++ [x].

(* nodes.py:488 *)
Definition host_afs (n : hnode) : list string :=
  filter (fun af => negb (String.eqb af "ipv6") || negb (hn_use_ra n)) (hn_af n).

(* nodes.py:473-507: one node; [dhcp] tells whether the lab uses the dhcp module. The flag is set when the node got
   its static routes. *)
Definition host_static (sr : list sroute) (dhcp : bool) (n : hnode) : result host_error (hnode * bool) :=
  if negb (hn_host n) then Ok (n, false)
  else if match hn_static n with Some (_ :: _) => true | _ => false end then Ok (n, false)
  else
    match (if dhcp then remove_dhcp n (host_afs n) (host_afs n) else Ok (host_afs n)) with
    | Err e => Err e
    | Ok [] => Ok (n, false)
    | Ok afs =>
        let routes := flat_map (fun af => filter (fun r => dmem af r) sr) afs in
        Ok (mk_hn (hn_host n) (hn_af n) (hn_use_ra n) (hn_server n) (hn_intf n) (Some routes)
              (append_to_list "routing" (hn_module n)), true)
    end.

(* nodes.py:473-507 add_host_static_routes; [global] is routing.static.host, [modules] the modules of the topology *)
Fixpoint host_statics (sr : list sroute) (modules : list string) (l : list hnode)
  : result host_error (list hnode * list string) :=
  match l with
  | [] => Ok ([], modules)
  | n :: r =>
      match host_static sr (memS "dhcp" modules) n with
      | Err e => Err e
      | Ok (n', used) =>
          match host_statics sr (if used then append_to_list "routing" modules else modules) r with
          | Err e => Err e
          | Ok (r', m) => Ok (n' :: r', m)
          end
      end
  end.

Definition add_host_static_routes (global : option (list sroute)) (pools : dict (dict af_value))
  (modules : list string) (l : list hnode) : result host_error (list hnode * list string) :=
  host_statics (match global with Some sr => sr | None => default_static_route_list pools end) modules l.

(* ---- daemon configuration files ---- *)

(* str.replace(c, d) for one-character strings *)
Fixpoint replace_char (c d : ascii) (s : string) : string :=
  match s with
  | EmptyString => EmptyString
  | String x r => String (if Ascii.eqb x c then d else x) (replace_char c d r)
  end.

Definition starts_underscore (s : string) : bool :=
  match s with String "_" _ => true | _ => false end.

(* nodes.py:520-530 cleanup_daemon_config *)
Definition cleanup_daemon_config {A} (device : string) (module config : list string) (d : dict A) : dict A :=
  fold_left (fun acc k =>
    if starts_underscore k then acc
    else
      let kn := replace_char "@" "." k in
      if String.eqb kn device || memS kn module || memS kn config then acc else dpop k acc)
    (map fst d) d.

(* ---- link types and roles ---- *)

(* nodes at the ends of a link *)
Record lnode := mk_ln { ln_host : bool; ln_daemon : bool }.

(* what set_link_loopback_type needs about the device of a node *)
Record lbdev := mk_lb {
  lb_name : bool;                         (* loopback_interface_name is set *)
  lb_feature : option bool }.             (* stub_loopback; a dictionary counts as true *)

Record tlink := mk_tl {
  tl_nodes : list lnode;
  tl_dev : lbdev;                         (* device of the first node *)
  tl_type : option string;
  tl_role : option string;
  tl_vlan : bool;                         (* 'vlan_name' in link *)
  tl_dhcp : bool;                         (* truth value of dhcp.subnet.ipv4 *)
  tl_count : option Z;                    (* node_count *)
  tl_hosts : Z;                           (* host_count, zero when missing *)
  tl_routers : Z }.                       (* router_count, zero when missing *)

Definition count_nodes (p : lnode -> bool) (l : list lnode) : Z := Z.of_nat (length (filter p l)).

(* links.py:913-935 count_link_nodes *)
Definition count_link_nodes (l : tlink) : tlink :=
  match tl_count l with
  | Some _ => l
  | None =>
      let h := count_nodes ln_host (tl_nodes l) in
      let r := count_nodes (fun n => negb (ln_host n) || ln_daemon n) (tl_nodes l) in
      mk_tl (tl_nodes l) (tl_dev l) (tl_type l) (tl_role l) (tl_vlan l) (tl_dhcp l)
        (Some (Z.of_nat (length (tl_nodes l))))
        (if h >? 0 then h else tl_hosts l) (if r >? 0 then r else tl_routers l)
  end.

Definition tl_set_type (t : string) (l : tlink) : tlink :=
  mk_tl (tl_nodes l) (tl_dev l) (Some t) (tl_role l) (tl_vlan l) (tl_dhcp l) (tl_count l) (tl_hosts l) (tl_routers l).

(* links.py:890-908 set_link_loopback_type; [def] is links.stub_loopback *)
Definition set_link_loopback_type (def : bool) (l : tlink) : tlink :=
  if negb (lb_name (tl_dev l)) then l
  else if (match lb_feature (tl_dev l) with Some b => b | None => def end) then tl_set_type "loopback" l
  else l.

(* links.py:949-969 set_link_type_role; node_count always exists after count_link_nodes *)
Definition set_link_type_role (def : bool) (l0 : tlink) : tlink :=
  let l1 := count_link_nodes l0 in
  let cnt := match tl_count l1 with Some c => c | None => 0 end in
  let l2 := if cnt =? 1 then set_link_loopback_type def l1 else l1 in
  let role :=
    match tl_role l2 with
    | Some r => Some r
    | None => if (tl_routers l2 <=? 1) && negb (opt_type_is "loopback" (tl_type l2)) && negb (tl_vlan l2)
              then Some "stub"%string else None
    end in
  let hosts := if tl_dhcp l2 then tl_hosts l2 + 1 else tl_hosts l2 in
  let ty := match tl_type l2 with
            | Some t => t
            | None => Extra_Model.get_default_link_type cnt hosts
            end in
  mk_tl (tl_nodes l2) (tl_dev l2) (Some ty) role (tl_vlan l2) (tl_dhcp l2) (tl_count l2) hosts 0.

Inductive ltype_error := NoNodes | StubNodes | P2PNodes | LoopbackNodes | NoType.

(* links.py:982-1023 check_link_type without the type of the MTU *)
Definition check_link_type (l : tlink) : option ltype_error :=
  let cnt := match tl_count l with Some c => c | None => 0 end in
  match tl_type l with
  | None => Some NoType
  | Some t =>
      if cnt =? 0 then Some NoNodes
      else if String.eqb t "stub" && (cnt >? 1) then Some StubNodes
      else if String.eqb t "p2p" && negb (cnt =? 2) then Some P2PNodes
      else if String.eqb t "loopback" && negb (cnt =? 1) then Some LoopbackNodes
      else None
  end.

(* ---- unnumbered interfaces ---- *)

(* value of an interface address: absent, boolean, text *)
Inductive addr := AdNone | AdBool (b : bool) | AdStr (s : string).

Record fintf := mk_fi { fi_v4 : addr; fi_v6 : addr; fi_parent : option string; fi_parent4 : option string }.

Record ufeatures := mk_uf { uf_unnum : bool; uf_lla : bool }.

Inductive feature_error := NoUnnumbered (node : string) (k : nat) | NoLLA (node : string) (k : nat).

Definition is_true_addr (a : addr) : bool := match a with AdBool true => true | _ => false end.

(* links.py:1031-1050 interface_feature_check: one interface *)
Definition intf_feature (f : ufeatures) (node : string) (k : nat) (i : fintf) : list feature_error :=
  (if is_true_addr (fi_v4 i) && negb (uf_unnum f) then [NoUnnumbered node k] else [])
  ++ (if is_true_addr (fi_v6 i) && negb (uf_lla f) then [NoLLA node k] else []).

Fixpoint intf_features (f : ufeatures) (node : string) (k : nat) (l : list fintf) : list feature_error :=
  match l with
  | [] => []
  | i :: r => intf_feature f node k i ++ intf_features f node (S k) r
  end.

(* links.py:1031-1050 interface_feature_check *)
Definition interface_feature_check (nodes : list (string * ufeatures * list fintf)) : list feature_error :=
  flat_map (fun '(name, f, l) => intf_features f name 0%nat l) nodes.

(* loopback.ifname and loopback.ipv4 of a node: only true values matter *)
Definition truthy_str (o : option string) : option string :=
  match o with Some EmptyString => None | x => x end.

(* links.py:815-827 set_parent_interface *)
Definition set_parent_interface (lbname lbipv4 : option string) (i : fintf) : fintf :=
  if negb (is_true_addr (fi_v4 i)) then i
  else mk_fi (fi_v4 i) (fi_v6 i)
         (match truthy_str lbname with Some n => Some n | None => fi_parent i end)
         (match truthy_str lbipv4 with Some a => Some a | None => fi_parent4 i end).

(* links.py:317-319 add_node_interface: false addresses are removed; an empty text is false, too *)
Definition drop_false (a : addr) : addr :=
  match a with AdBool false => AdNone | AdStr EmptyString => AdNone | x => x end.

(* ---- interface descriptions ---- *)

Fixpoint join (sep : string) (l : list string) : string :=
  match l with
  | [] => ""
  | [x] => x
  | x :: r => x ++ sep ++ join sep r
  end%string.

(* links.py:787-803 create_ifname; [maxn] is ifname.neighbors, [maxlen] is ifname.maxlength *)
Definition create_ifname (maxn maxlen : nat) (p2p_ok : bool) (node : string) (ngb : list string) : string :=
  match ngb with
  | [] => (node ++ " -> stub")%string
  | n :: r =>
      if Nat.eqb (length ngb) 1 && p2p_ok then (node ++ " -> " ++ n)%string
      else
        let text := (join "," (firstn maxn ngb) ++ (if Nat.leb (length ngb) maxn then "" else "..."))%string in
        let name := (node ++ " -> [" ++ text ++ "]")%string in
        if Nat.leb maxlen (String.length name) then (substring 0 (maxlen - 3) name ++ "...")%string else name
  end.
