(* Model of static route processing in the post-transform phase: netsim/modules/routing.py (the 'static' entry of
   transform_dispatch after the include requests have been expanded). Definitions only.
   ipaddress is not modelled: [ipif] is ipaddress.ip_interface (the printed address and network, None: ValueError) and
   [inside] the test ip_interface(nh).network.subnet_of(ip_interface(intf).network) on the two texts. A Python
   exception is the value None. *)
From Coq Require Import String Bool Arith List.
From Verif Require Import Base.
Import ListNotations.
Open Scope nat_scope.

Inductive af := V4 | V6.
Definition af_eqb (a b : af) : bool := match a, b with V4, V4 | V6, V6 => true | _, _ => false end.
Definition af_list : list af := [V4; V6].

(* The ipv4 and ipv6 attributes of a dictionary; None: the attribute is missing *)
Record afd (A : Type) := mk_af { a4 : option A; a6 : option A }.
Arguments mk_af {A}. Arguments a4 {A}. Arguments a6 {A}.
Definition aget {A} (f : af) (d : afd A) : option A := match f with V4 => a4 d | V6 => a6 d end.
Definition aset {A} (f : af) (v : A) (d : afd A) : afd A :=
  match f with V4 => mk_af (Some v) (a6 d) | V6 => mk_af (a4 d) (Some v) end.
Definition no_af {A} : afd A := mk_af None None.
Definition or_else {A} (x y : option A) : option A := match x with Some _ => x | None => y end.
(* d + e: the attributes of the second dictionary win *)
Definition amerge {A} (d e : afd A) : afd A := mk_af (or_else (a4 e) (a4 d)) (or_else (a6 e) (a6 d)).
Definition has_af {A} (d : afd A) : bool :=
  match a4 d, a6 d with None, None => false | _, _ => true end.

(* The value of an address attribute: text, or true/false (unnumbered interface, link-local address) *)
Inductive aval := AStr (s : string) | ABool (b : bool).

(* The gateway attribute of an interface or of a neighbor: missing, false, or a dictionary with addresses
   ([o]: it has attributes other than ipv4 and ipv6) *)
Inductive gwv := GwNone | GwFalse | GwBox (d : afd aval) (o : bool).
Definition gw_true (g : gwv) : bool := match g with GwBox d o => o || has_af d | _ => false end.

Record ngb := mk_ngb { n_node : string; n_addr : afd aval; n_gw : gwv; n_dhcp4 : bool; n_dhcp6 : bool }.
Definition n_dhcp (f : af) (g : ngb) : bool := match f with V4 => n_dhcp4 g | V6 => n_dhcp6 g end.

Record sintf := mk_sintf { i_name : string; i_vrf : option string; i_addr : afd aval; i_gw : gwv; i_ngb : list ngb }.

(* An element of nexthop.nhlist; [h_vrf] is the vrf attribute: missing, null or a name *)
Record nhe := mk_nhe { h_addr : afd string; h_intf : string; h_vrf : option (option string) }.

(* The nexthop attribute of a static route *)
Record nexthop := mk_nx {
  x_addr : afd aval; x_node : option string; x_gw : bool; x_vrf : option (option string);
  x_list : option (list nhe); x_intf : option string; x_idx : option nat }.

(* A static route. [r_skip]: the _skip_missing attribute of generated host routes; [r_remove]: the remove flag *)
Record route := mk_route {
  r_addr : afd aval; r_pool : option string; r_prefix : option string; r_node : option string;
  r_vrf : option string; r_nh : option nexthop; r_skip : bool; r_remove : bool }.

(* The node: the address families, the VRFs and the device features (routing.static is a true value, its vrf,
   inter_vrf and max_nexthop attributes) *)
Record snode := mk_snode {
  s_af : list af; s_vrfs : list string;
  s_static : bool; s_fvrf : bool; s_finter : bool; s_max : option nat }.

(* Other nodes of the topology: the role is host, the loopback and the interfaces *)
Record rnode := mk_rnode { rn_host : bool; rn_loopback : option (afd aval); rn_ifs : list (afd aval) }.

Record stopo := mk_stopo { t_pools : dict (afd aval); t_prefix : dict (afd aval); t_nodes : dict rnode }.

Inductive serror :=
| EUnsupported | ENoPrefix | ENoNexthop
| EVrfUndefined (v : string) | EVrfUnsupported | EInterVrf | ENhVrfUndefined (v : string)
| ENotInVrf (n : string) | ENoAddr (f : af).

Definition opt_eqb (x y : option string) : bool :=
  match x, y with Some a, Some b => String.eqb a b | None, None => true | _, _ => false end.
Definition oopt_eqb (x y : option (option string)) : bool :=
  match x, y with Some a, Some b => opt_eqb a b | None, None => true | _, _ => false end.
Definition nhe_eqb (x y : nhe) : bool :=
  opt_eqb (a4 (h_addr x)) (a4 (h_addr y)) && opt_eqb (a6 (h_addr x)) (a6 (h_addr y)) &&
  String.eqb (h_intf x) (h_intf y) && oopt_eqb (h_vrf x) (h_vrf y).

(* data/__init__.py:37-47 append_to_list *)
Definition append_new (l : list nhe) (x : nhe) : list nhe := if existsb (nhe_eqb x) l then l else l ++ [x].

Section Ip.
Variable ipif : string -> option (string * string).
Variable inside : string -> string -> option bool.

(* routing.py:621-633 extract_af_info, one address family: a true/false value is kept. utils/routing.py:17-18
   get_intf_address (keep = false) and 23-24 get_prefix (keep = true). *)
Definition extract_one (keep : bool) (v : option aval) : option (option aval) :=
  match v with
  | None => Some None
  | Some (ABool b) => Some (Some (ABool b))
  | Some (AStr s) =>
      match ipif s with
      | Some (h, n) => Some (Some (AStr (if keep then n else h)))
      | None => None
      end
  end.
(* routing.py:621-633 extract_af_info *)
Definition extract_af_info (keep : bool) (d : afd aval) : option (afd aval) :=
  match extract_one keep (a4 d), extract_one keep (a6 d) with
  | Some x, Some y => Some (mk_af x y)
  | _, _ => None
  end.

(* _routing.py:422-429 get_remote_cp_endpoint (an unknown node is an empty dictionary) *)
Definition get_remote_cp_endpoint (t : stopo) (n : string) : afd aval :=
  match dget n (t_nodes t) with
  | None => no_af
  | Some r =>
      match rn_loopback r with
      | Some a => if rn_host r then match rn_ifs r with i :: _ => i | [] => no_af end else a
      | None => match rn_ifs r with i :: _ => i | [] => no_af end
      end
  end.

Definition is_str (v : option aval) : bool := match v with Some (AStr _) => true | _ => false end.
Definition str_of (v : option aval) : option string := match v with Some (AStr s) => Some s | _ => None end.

(* routing.py:643-649 get_static_route_id: the text is not modelled; joining a prefix that is not a text is a
   TypeError *)
Definition route_id_ok (r : route) : bool :=
  match a4 (r_addr r) with Some (ABool _) => false | _ => true end &&
  match a6 (r_addr r) with Some (ABool _) => false | _ => true end.

(* routing.py:722-735 create_nexthop_data; None: the result is empty *)
Definition create_nexthop_data (xv : option (option string)) (d : afd aval) (intf : string) : option nhe :=
  if is_str (a4 d) || is_str (a6 d)
  then Some (mk_nhe (mk_af (str_of (a4 d)) (str_of (a6 d))) intf xv)
  else None.

(* The next-hop data returned by the resolve functions: addresses and the optional list *)
Record resolved := mk_rs { rs_addr : afd aval; rs_list : option (list nhe) }.

(* routing.py:743-748 extract_nh_from_list for one address family *)
Definition first_addr (f : af) (l : list nhe) : option aval :=
  match flat_map (fun h => match aget f (h_addr h) with Some s => [s] | None => [] end) l with
  | s :: _ => Some (AStr s)
  | [] => None
  end.
Definition extract_nh_from_list (l : list nhe) : resolved :=
  mk_rs (mk_af (first_addr V4 l) (first_addr V6 l)) (Some l).

(* nh_vrf in routing.py:761, 851, 904 *)
Definition nh_vrf (r : route) (x : nexthop) : option string :=
  match x_vrf x with Some v => v | None => r_vrf r end.

(* routing.py:765-778 the inner loop of resolve_node_nexthop: the neighbors of one interface *)
Fixpoint node_ngbs (n : string) (v : option string) (xv : option (option string)) (i : sintf) (l : list ngb)
  (st : list nhe * bool) : option (list nhe * bool) :=
  match l with
  | [] => Some st
  | g :: r =>
      if negb (String.eqb (n_node g) n) then node_ngbs n v xv i r st
      else if negb (opt_eqb (i_vrf i) v) then node_ngbs n v xv i r (fst st, true)
      else match extract_af_info false (n_addr g) with
           | None => None
           | Some a =>
               node_ngbs n v xv i r
                 (match create_nexthop_data xv a (i_name i) with
                  | Some h => append_new (fst st) h
                  | None => fst st
                  end, true)
           end
  end.
(* routing.py:764-778 *)
Fixpoint node_hops (n : string) (v : option string) (xv : option (option string)) (ifs : list sintf)
  (st : list nhe * bool) : option (list nhe * bool) :=
  match ifs with
  | [] => Some st
  | i :: r =>
      match node_ngbs n v xv i (i_ngb i) st with
      | None => None
      | Some st' => node_hops n v xv r st'
      end
  end.

(* routing.py:759-794 resolve_node_nexthop *)
Definition resolve_node_nexthop (t : stopo) (r : route) (x : nexthop) (n : string) (ifs : list sintf)
  : option (resolved * list serror) :=
  match node_hops n (nh_vrf r x) (x_vrf x) ifs ([], false) with
  | None => None
  | Some (l, found) =>
      match l with
      | _ :: _ => Some (extract_nh_from_list l, [])
      | [] =>
          if found && negb (route_id_ok r) then None
          else match extract_af_info false (get_remote_cp_endpoint t n) with
               | None => None
               | Some a => Some (mk_rs a None, if found then [ENotInVrf n] else [])
               end
      end
  end.

Definition is_host (t : stopo) (n : string) : bool :=
  match dget n (t_nodes t) with Some r => rn_host r | None => false end.

(* routing.py:810-825 the neighbor loop of create_gateway_last_resort for one address family: the gateway address
   and whether an unnumbered neighbor was found *)
Fixpoint last_resort_ngb (t : stopo) (f : af) (l : list ngb) (un : bool) : option string * bool :=
  match l with
  | [] => (None, un)
  | g :: r =>
      if is_host t (n_node g) then last_resort_ngb t f r un
      else match aget f (n_addr g) with
           | None => last_resort_ngb t f r un
           | Some (ABool b) => last_resort_ngb t f r (un || b)
           | Some (AStr s) => if n_dhcp f g then last_resort_ngb t f r un else (Some s, un)
           end
  end.
(* routing.py:805-829 create_gateway_last_resort: the gateway data, the address families still missing and whether
   an unnumbered neighbor was found *)
Fixpoint last_resort (t : stopo) (i : sintf) (todo : list af) (st : afd aval * list af * bool)
  : afd aval * list af * bool :=
  match todo with
  | [] => st
  | f :: r =>
      match st with
      | (d, m, un) =>
          match last_resort_ngb t f (i_ngb i) un with
          | (Some s, un') => last_resort t i r (aset f (AStr s) d, filter (fun g => negb (af_eqb f g)) m, un')
          | (None, un') => last_resort t i r (d, m, un')
          end
      end
  end.

Definition set_gw (i : sintf) (g : gwv) : sintf := mk_sintf (i_name i) (i_vrf i) (i_addr i) g (i_ngb i).

(* routing.py:862-867 the gateway data of the neighbors: the first neighbor with a gateway attribute *)
Fixpoint ngb_gw (l : list ngb) : gwv :=
  match l with
  | [] => GwNone
  | g :: r => match n_gw g with GwNone => ngb_gw r | x => x end
  end.

(* routing.py:861-867 the gateway data found on the interface, and the interface with the cached data *)
Definition intf_gw (i : sintf) : gwv * sintf :=
  if gw_true (i_gw i) then (i_gw i, i)
  else match ngb_gw (i_ngb i) with
       | GwNone => (i_gw i, i)
       | g => (g, set_gw i g)
       end.

(* routing.py:857-879 the interface loop of resolve_gateway_nexthop. [create]: None for the first call, the missing
   address families for the gateway-of-last-resort call. Returns the interfaces, the next-hop list and the
   unnumbered flag. A false gateway value is not iterable (TypeError in extract_af_info). *)
Fixpoint gw_hops (t : stopo) (v : option string) (xv : option (option string)) (create : option (list af))
  (ifs : list sintf) (acc : list nhe) (un : bool) : option (list sintf * list nhe * bool) :=
  match ifs with
  | [] => Some ([], acc, un)
  | i :: r =>
      let keep (i' : sintf) (c : option (list af)) (acc' : list nhe) (un' : bool) :=
        match gw_hops t v xv c r acc' un' with
        | Some (l, a, u) => Some (i' :: l, a, u)
        | None => None
        end in
      let use (i' : sintf) (c : option (list af)) (d : afd aval) (un' : bool) :=
        match extract_af_info false d with
        | None => None
        | Some a =>
            keep i' c (match create_nexthop_data xv a (i_name i) with
                       | Some h => append_new acc h
                       | None => acc
                       end) un'
        end in
      if negb (opt_eqb (i_vrf i) v) then keep i create acc un
      else
        match intf_gw i with
        | (g, i1) =>
            if gw_true g then match g with GwBox d _ => use i1 create d un | _ => None end
            else
              match create with
              | Some m =>
                  match last_resort t i1 m (no_af, m, false) with
                  | (d, m', u) =>
                      if has_af d then use (set_gw i1 (GwBox d false)) (Some m') d (un || u)
                      else keep i1 (Some m') acc (un || u)
                  end
              | None =>
                  match g with
                  | GwNone => use i1 None no_af un
                  | GwBox d _ => use i1 None d un
                  | GwFalse => None
                  end
              end
        end
  end.

(* routing.py:849-892 resolve_gateway_nexthop; the result None: an empty dictionary. The warning is the last
   component. *)
Definition resolve_gateway_nexthop (t : stopo) (nd : snode) (r : route) (x : nexthop) (create : bool)
  (ifs : list sintf) : option (list sintf * option resolved * bool) :=
  match gw_hops t (nh_vrf r x) (x_vrf x) (if create then Some (s_af nd) else None) ifs [] false with
  | None => None
  | Some (l, acc, un) =>
      Some (l, match acc with [] => None | _ => Some (extract_nh_from_list acc) end,
            match acc with [] => un | _ => false end)
  end.

(* routing.py:912-930 the interface loop of resolve_nexthop_intf *)
Fixpoint direct_hops (f : af) (a : string) (v : option string) (xv : option (option string)) (ifs : list sintf)
  (acc : list nhe) : option (list nhe) :=
  match ifs with
  | [] => Some acc
  | i :: r =>
      match aget f (i_addr i) with
      | Some (AStr s) =>
          if negb (opt_eqb (i_vrf i) v) then direct_hops f a v xv r acc
          else match inside a s with
               | None => None
               | Some false => direct_hops f a v xv r acc
               | Some true => direct_hops f a v xv r (append_new acc (mk_nhe (aset f a no_af) (i_name i) xv))
               end
      | _ => direct_hops f a v xv r acc
      end
  end.
(* routing.py:902-932 resolve_nexthop_intf: the next-hop list (empty: nhlist is not set). The value of the missing
   nexthop attribute is an empty dictionary, which ip_interface does not accept; next-hop attributes are texts (the
   other values are taken as not accepted). *)
Fixpoint resolve_nexthop_intf (todo : list af) (r : route) (x : nexthop) (ifs : list sintf) (acc : list nhe)
  : option (list nhe) :=
  match todo with
  | [] => Some acc
  | f :: fs =>
      match aget f (r_addr r) with
      | None => resolve_nexthop_intf fs r x ifs acc
      | Some _ =>
          match aget f (x_addr x) with
          | Some (AStr a) =>
              match ipif a with
              | None => None
              | Some _ =>
                  match direct_hops f a (nh_vrf r x) (x_vrf x) ifs acc with
                  | None => None
                  | Some acc' => resolve_nexthop_intf fs r x ifs acc'
                  end
              end
          | _ => None
          end
      end
  end.

(* routing.py:936-968 check_VRF_static_route *)
Definition check_VRF_static_route (nd : snode) (r : route) (x : nexthop) : option serror :=
  let second :=
    match x_vrf x with
    | None => None
    | Some v =>
        if negb (s_finter nd) then Some EInterVrf
        else match v with
             | Some n => if negb (String.eqb n "") && negb (memS n (s_vrfs nd)) then Some (ENhVrfUndefined n) else None
             | None => None
             end
    end in
  match r_vrf r with
  | Some v =>
      if negb (memS v (s_vrfs nd)) then Some (EVrfUndefined v)
      else if negb (s_fvrf nd) then Some EVrfUnsupported
      else second
  | None => second
  end.
(* the errors whose text contains the route identifier *)
Definition error_has_id (e : serror) : bool :=
  match e with EVrfUndefined _ | ENhVrfUndefined _ => true | _ => false end.

Definition with_addr (r : route) (a : afd aval) : route :=
  mk_route a (r_pool r) (r_prefix r) (r_node r) (r_vrf r) (r_nh r) (r_skip r) (r_remove r).
Definition with_nh (r : route) (x : nexthop) : route :=
  mk_route (r_addr r) (r_pool r) (r_prefix r) (r_node r) (r_vrf r) (Some x) (r_skip r) (r_remove r).
Definition removed (r : route) : route :=
  mk_route (r_addr r) (r_pool r) (r_prefix r) (r_node r) (r_vrf r) (r_nh r) (r_skip r) true.

Definition pool_af (k : string) (d : dict (afd aval)) : afd aval :=
  match dget k d with Some a => a | None => no_af end.

(* routing.py:978-983: the prefixes of a pool, a named prefix (all named prefixes have been evaluated, so
   evaluate_named_prefix returns the prefix) or a node; whether sr_data is now a copy of the list element *)
Definition expand_route (t : stopo) (r : route) : option (route * bool) :=
  let ext (a : afd aval) :=
    match extract_af_info true a with
    | Some b => Some (with_addr r (amerge (r_addr r) b), true)
    | None => None
    end in
  match r_pool r, r_prefix r, r_node r with
  | Some p, _, _ => ext (pool_af p (t_pools t))
  | None, Some p, _ => ext (pool_af p (t_prefix t))
  | None, None, Some n => ext (get_remote_cp_endpoint t n)
  | None, None, None => Some (r, false)
  end.

(* resolved + sr_data.nexthop *)
Definition merge_nh (s : resolved) (x : nexthop) : nexthop :=
  mk_nx (amerge (rs_addr s) (x_addr x)) (x_node x) (x_gw x) (x_vrf x) (or_else (x_list x) (rs_list s)) (x_intf x)
        (x_idx x).

Definition with_list (x : nexthop) (l : list nhe) : nexthop :=
  mk_nx (x_addr x) (x_node x) (x_gw x) (x_vrf x)
        (match l with [] => x_list x | _ => Some l end) (x_intf x) (x_idx x).
Definition with_idx (x : nexthop) (k : nat) : nexthop :=
  mk_nx (x_addr x) (x_node x) (x_gw x) (x_vrf x) (x_list x) (x_intf x) (Some k).

Definition truthy_name (o : option string) : option string :=
  match o with Some n => if String.eqb n "" then None else Some n | None => None end.

(* routing.py:1009-1018: the next hop of the route, the interfaces, the warning and the errors *)
Definition resolve_nexthop (t : stopo) (nd : snode) (r : route) (x : nexthop) (ifs : list sintf)
  : option (nexthop * list sintf * bool * list serror) :=
  match truthy_name (x_node x) with
  | Some n =>
      match resolve_node_nexthop t r x n ifs with
      | Some (s, e) => Some (merge_nh s x, ifs, false, e)
      | None => None
      end
  | None =>
      if x_gw x then
        match resolve_gateway_nexthop t nd r x false ifs with
        | None => None
        | Some (ifs1, Some s, _) => Some (merge_nh s x, ifs1, false, [])
        | Some (ifs1, None, _) =>
            match resolve_gateway_nexthop t nd r x true ifs1 with
            | None => None
            | Some (ifs2, Some s, _) => Some (merge_nh s x, ifs2, false, [])
            | Some (ifs2, None, w) => Some (x, ifs2, w, [])
            end
        end
      else if has_af (x_addr x) then
        match resolve_nexthop_intf af_list r x ifs (match x_list x with Some l => l | None => [] end) with
        | Some l => Some (with_list x l, ifs, false, [])
        | None => None
        end
      else Some (x, ifs, false, [])
  end.

(* routing.py:1020-1033: the first address family with a prefix and without a next hop *)
Fixpoint missing_nh (todo : list af) (r : route) (x : nexthop) : option af :=
  match todo with
  | [] => None
  | f :: fs =>
      match aget f (r_addr r), aget f (x_addr x) with
      | Some _, None => Some f
      | _, _ => missing_nh fs r x
      end
  end.

Definition wrap_str (o : option string) : option aval := match o with Some s => Some (AStr s) | None => None end.

(* routing.py:1043-1048 one route per next hop *)
Definition hop_route (r : route) (f : af) (p : aval) (k : nat) (h : nhe) : route :=
  mk_route (aset f p no_af) None None None (r_vrf r)
    (Some (mk_nx (mk_af (wrap_str (a4 (h_addr h))) (wrap_str (a6 (h_addr h)))) None false (h_vrf h) None
                 (Some (h_intf h)) (Some k)))
    false false.
Fixpoint number (k : nat) (r : route) (f : af) (p : aval) (l : list nhe) : list route :=
  match l with
  | [] => []
  | h :: t => hop_route r f p k h :: number (S k) r f p t
  end.
(* routing.py:1037-1050 *)
Definition expand_hops (nd : snode) (r : route) (l : list nhe) : list route :=
  flat_map (fun f =>
    match aget f (r_addr r) with
    | None => []
    | Some p =>
        number 0 r f p
          (firstn (match s_max nd with Some m => m | None => 256 end)
                  (filter (fun h => match aget f (h_addr h) with Some _ => true | None => false end) l))
    end) af_list.

(* What check_static_routes does with one route: the new value of sr_data, whether it is stored in the list on
   return, the added routes, the interfaces, the warning and the errors *)
Record outcome := mk_out {
  o_route : route; o_stored : bool; o_added : list route; o_ifs : list sintf; o_warn : bool; o_errs : list serror }.

(* routing.py:971-1052 check_static_routes; 137-145 check_routing_object. [first]: the index is zero. *)
Definition check_static_route (t : stopo) (nd : snode) (first : bool) (r0 : route) (ifs : list sintf)
  : option outcome :=
  match expand_route t r0 with
  | None => None
  | Some (r, copy) =>
      let e0 := if first && negb (s_static nd) then [EUnsupported] else [] in
      if first && negb (route_id_ok r) then None
      else if negb (has_af (r_addr r)) then Some (mk_out r (negb copy) [] ifs false (e0 ++ [ENoPrefix]))
      else
        match r_nh r with
        | None =>
            if r_skip r then Some (mk_out (removed r) (negb copy) [] ifs false e0)
            else if route_id_ok r then Some (mk_out r (negb copy) [] ifs false (e0 ++ [ENoNexthop]))
            else None
        | Some x =>
            match check_VRF_static_route nd r x with
            | Some e =>
                if error_has_id e && negb (route_id_ok r) then None
                else Some (mk_out r (negb copy) [] ifs false (e0 ++ [e]))
            | None =>
                match resolve_nexthop t nd r x ifs with
                | None => None
                | Some (x', ifs', w, es) =>
                    let r1 := with_nh r x' in
                    match missing_nh af_list r1 x' with
                    | Some f =>
                        if r_skip r1 then Some (mk_out (removed r1) (negb copy) [] ifs' w (e0 ++ es))
                        else Some (mk_out r1 (negb copy) [] ifs' w (e0 ++ es ++ [ENoAddr f]))
                    | None =>
                        match x_list x' with
                        | Some l => Some (mk_out (removed r1) true (expand_hops nd r1 l) ifs' w (e0 ++ es))
                        | None => Some (mk_out (with_nh r (with_idx x' 0)) true [] ifs' w (e0 ++ es))
                        end
                    end
                end
            end
        end
  end.

(* The state of the node while its routes are processed *)
Record sstate := mk_sst {
  ss_done : list route;      (* list elements already processed *)
  ss_added : list route;     (* routes appended to the list *)
  ss_ifs : list sintf; ss_warned : bool; ss_warns : nat; ss_errs : list serror }.

(* routing.py:403-405 the loop of process_routing_data over the initial length of the list *)
Fixpoint check_routes (t : stopo) (nd : snode) (first : bool) (l : list route) (st : sstate) : option sstate :=
  match l with
  | [] => Some st
  | r :: rest =>
      match check_static_route t nd first r (ss_ifs st) with
      | None => None
      | Some o =>
          check_routes t nd false rest
            (mk_sst (ss_done st ++ [if o_stored o then o_route o else r]) (ss_added st ++ o_added o) (o_ifs o)
                    (ss_warned st || o_warn o)
                    (if o_warn o && negb (ss_warned st) then S (ss_warns st) else ss_warns st)
                    (ss_errs st ++ o_errs o))
      end
  end.

(* routing.py:1054-1055 cleanup_static_routes *)
Definition cleanup_static_routes (l : list route) : list route := filter (fun r => negb (r_remove r)) l.

(* routing.py:373-409 process_routing_data for static routes: the routes of the node, the interfaces, the number of
   warnings and the errors *)
Record sresult := mk_sres { p_routes : list route; p_ifs : list sintf; p_warns : nat; p_errs : list serror }.
Definition process_static (t : stopo) (nd : snode) (l : list route) (ifs : list sintf) : option sresult :=
  match check_routes t nd true l (mk_sst [] [] ifs false 0 []) with
  | None => None
  | Some st =>
      Some (mk_sres (cleanup_static_routes (ss_done st ++ ss_added st)) (ss_ifs st) (ss_warns st) (ss_errs st))
  end.
End Ip.
