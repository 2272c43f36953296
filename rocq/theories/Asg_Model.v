(* Model of netsim/augment/addressing.py: named prefixes, and of netsim/augment/links.py: link prefixes, unnumbered interfaces and
   removal of unused address families. Definitions only. *)
From Coq Require Import String Ascii ZArith Bool List.
From Verif Require Import Base Box_Model.
Import ListNotations.
Local Open Scope string_scope.
Local Open Scope list_scope.

(* Box.__add__ of two dictionaries *)
Definition madd (a b : dict val) : dict val := match merge (VDict a) (VDict b) with VDict d => d | _ => [] end.

Section Named.
Variable known : string -> bool.                           (* pools of the topology *)
Variable alloc : string -> nat -> dict val.                (* the k-th prefix of a pool, addressing.get_pool_prefix; networks are texts *)

(* named prefixes, pools in the order of allocations, names of prefixes with unknown pools *)
Record nstate := mk_ns { ns_pfx : dict (dict val); ns_log : list string; ns_err : list string }.

Definition uses (p : string) (log : list string) : nat := length (filter (String.eqb p) log).

(* augment/addressing.py:316-339 evaluate_named_prefix; names of pools are texts *)
Definition evaluate (s : nstate) (name : string) : nstate * dict val :=
  match dget name (ns_pfx s) with
  | None => (s, [])
  | Some d =>
      let d1 := dset "_name" (VStr name) d in
      let pfx1 := dset name d1 (ns_pfx s) in
      match dget "pool" d1 with
      | None => (mk_ns pfx1 (ns_log s) (ns_err s), d1)
      | Some (VStr p) =>
          if known p then
            let d2 := dpop "pool" (madd d1 (alloc p (uses p (ns_log s)))) in
            (mk_ns (dset name d2 pfx1) (ns_log s ++ [p]) (ns_err s), d2)
          else (mk_ns pfx1 (ns_log s) (ns_err s ++ [name]), [])
      | Some _ => (mk_ns pfx1 (ns_log s) (ns_err s ++ [name]), [])
      end
  end.

(* augment/addressing.py:344-347 setup_prefixes *)
Definition setup_step (s : nstate) (x : string * dict val) : nstate := if dmem "pool" (snd x) then fst (evaluate s (fst x)) else s.
Definition setup_prefixes (pfx : dict (dict val)) : nstate := fold_left setup_step pfx (mk_ns pfx [] []).

Variable net4 : string -> option string.                   (* ipaddress.IPv4Network *)
Variable net : val -> option string.                       (* ipaddress.ip_network *)

(* augment/addressing.py:386-407 parse_prefix: one attribute of a prefix *)
Definition parse_attr (x : string * val) : option val :=
  if memS (fst x) ["ipv4"; "ipv6"] then
    match snd x with
    | VBool b => Some (VBool b)
    | v => match net v with Some t => Some (VStr t) | None => None end
    end
  else Some (snd x).

Fixpoint parse_attrs (d : dict val) : option (dict val) :=
  match d with
  | [] => Some []
  | x :: r => match parse_attr x, parse_attrs r with
              | Some v, Some l => Some ((fst x, v) :: l)
              | _, _ => None
              end
  end.

(* augment/addressing.py:375-384 parse_prefix: the legacy attribute ip *)
Definition rename_ip (d : dict val) : option (dict val) :=
  match dget "ip" d with
  | None => Some d
  | Some v => if dmem "ipv4" d then None else Some (dpop "ip" (dset "ipv4" v d))
  end.

(* augment/addressing.py:349-409 parse_prefix: state, the result, an error. Values other than texts and dictionaries are rejected before. *)
Definition parse_prefix (s : nstate) (v : val) : nstate * dict val * bool :=
  if negb (truthy v) then (s, [], false)
  else match v with
       | VStr t =>
           if dmem t (ns_pfx s) then
             let s1 := fst (evaluate s t) in
             (s1, match dget t (ns_pfx s1) with Some d => d | None => [] end, false)
           else match net4 t with Some n => (s, [("ipv4", VStr n)], false) | None => (s, [], true) end
       | VDict d =>
           match rename_ip d with
           | None => (s, [], true)
           | Some d1 => match parse_attrs d1 with Some l => (s, l, false) | None => (s, [], true) end
           end
       | _ => (s, [], true)
       end.
End Named.

(* augment/addressing.py:90-95 rebuild_prefix; networks are texts already *)
Definition rebuild_prefix (p : dict val) : dict val :=
  flat_map (fun k => match dget k p with Some v => [(k, v)] | None => [] end) ["ipv4"; "ipv6"; "allocation"; "_name"].

(* a link: prefix, unnumbered, pool, role, gateway id and addresses *)
Record alink := mk_al { l_prefix : option val; l_unn : bool; l_pool : option string; l_role : option string; l_gw : option (Z * dict val) }.

Section Link.
Variable parse : val -> dict val.                          (* addressing.parse_prefix *)
Variable pools : dict (dict val).                          (* pools with the next prefix of each of them *)
Variable nth_ip : val -> Z -> option string.               (* addressing.get_nth_ip_from_prefix *)

(* augment/links.py:365-385 set_fhrp_gateway: one address family; the flag - an error was found *)
Definition gw_step (prefix : dict val) (pfx : dict val) (id : Z) (s : dict val * bool) (af : string) : dict val * bool :=
  if snd s then s
  else match dget af pfx with
       | None => s
       | Some (VBool _) => s
       | Some _ => match nth_ip (match dget af prefix with Some v => v | None => VDict [] end) id with
                   | Some a => (dset af (VStr a) (fst s), false)
                   | None => (fst s, true)
                   end
       end.

(* augment/links.py:365-391 set_fhrp_gateway *)
Definition set_gateway (prefix : option val) (pfx : dict val) (gw : option (Z * dict val)) : option (Z * dict val) * bool :=
  match gw with
  | None => (None, false)
  | Some (id, d) =>
      if (id =? 0)%Z then (gw, false)
      else let (d1, e) := fold_left (gw_step (match prefix with Some (VDict p) => p | _ => [] end) pfx id) ["ipv4"; "ipv6"] (d, false) in
           (Some (id, d1), e)
  end.

(* augment/addressing.py:230-239 get_pool *)
Definition get_pool (l : list string) : option string := find (fun p => dmem p pools) l.

(* augment/links.py:437-448 assign_link_prefix: candidate pools *)
Definition candidates (l : alink) (defs : list string) : list string :=
  match l_pool l with
  | Some p => p :: defs
  | None => match l_role l with Some r => r :: defs | None => defs end
  end.

Inductive lerror := UnknownPool (p : string) | NoPool | NoGateway.

(* augment/links.py:431-459 assign_link_prefix: no usable prefix on the link; [extra] - data from the prefix of the link *)
Definition pool_prefix (l : alink) (defs : list string) (extra : dict val) : alink * dict val * list lerror :=
  if l_unn l then (mk_al (Some (VDict [("unnumbered", VBool true)])) (l_unn l) (l_pool l) (l_role l) (l_gw l), [("unnumbered", VBool true)], [])
  else
    let e1 := match l_pool l with Some p => if dmem p pools then [] else [UnknownPool p] | None => [] end in
    let '(got, e2) := match get_pool (candidates l defs) with
                      | Some p => (match dget p pools with Some d => d | None => [] end, [])
                      | None => ([], [NoPool])
                      end in
    let full := madd got extra in
    let pfx := match full with [] => None | _ => Some (VDict full) end in
    let (gw, bad) := set_gateway pfx got (l_gw l) in
    (mk_al pfx (l_unn l) (l_pool l) (l_role l) gw, got, e1 ++ e2 ++ (if bad then [NoGateway] else [])).

(* augment/links.py:407-459 assign_link_prefix *)
Definition link_prefix (l : alink) (defs : list string) : alink * dict val * list lerror :=
  match l_prefix l with
  | None => pool_prefix l defs []
  | Some v =>
      let data := parse v in
      match v with
      | VBool false => (l, data, [])
      | _ =>
        let p1 := match v with VStr _ => VDict (rebuild_prefix data) | _ => v end in
        let (gw, bad) := set_gateway (Some p1) data (l_gw l) in
        let l1 := mk_al (Some p1) (l_unn l) (l_pool l) (l_role l) gw in
        let e := if bad then [NoGateway] else [] in
        match data with
        | [] => (l1, data, e)
        | _ => if dmem "ipv4" data || dmem "ipv6" data then (l1, data, e)
               else let '(l2, r, e2) := pool_prefix l1 defs data in (l2, r, e ++ e2)
        end
      end
  end.
End Link.

(* an interface: node, addresses *)
Record uintf := mk_ui { u_node : string; u_v4 : option val; u_v6 : option val }.

Definition uget (four : bool) (i : uintf) : option val := if four then u_v4 i else u_v6 i.
Definition uset (four : bool) (v : option val) (i : uintf) : uintf := if four then mk_ui (u_node i) v (u_v6 i) else mk_ui (u_node i) (u_v4 i) v.

Section Unnumbered.
Variable loopback : string -> option (dict val).           (* loopback data of a node *)

(* augment/links.py:597-614 IPAM_unnumbered: one interface *)
Definition unnumbered_intf (four : bool) (pfx : option bool) (i : uintf) : uintf * list string :=
  match uget four i with
  | Some (VInt _) => (i, [u_node i])
  | Some _ => (i, [])
  | None =>
      match pfx with
      | Some b => (uset four (Some (VBool b)) i, [])
      | None => match loopback (u_node i) with
                | Some d => (uset four (Some (VBool (match dget (if four then "ipv4" else "ipv6") d with Some v => truthy v | None => false end))) i, [])
                | None => (if four then i else uset four (Some (VBool true)) i, [])
                end
      end
  end.

(* augment/links.py:597-614 IPAM_unnumbered; errors - nodes *)
Definition ipam_unnumbered (four : bool) (pfx : option bool) (l : list uintf) : list uintf * list string :=
  (map (fun i => fst (unnumbered_intf four pfx i)) l, flat_map (fun i => snd (unnumbered_intf four pfx i)) l).

(* a link: prefix, unnumbered, interfaces *)
Record ulink := mk_ul { ul_prefix : option (dict val); ul_unn : bool; ul_intf : list uintf }.

Variable parse_net : val -> option string.                 (* ipaddress.ip_network *)
Variable policy : string -> ulink -> string.               (* get_prefix_IPAM_policy *)
Variable ipam : string -> bool -> string -> list uintf -> list uintf * bool. (* IPAM_dispatch with the exception of IPAM_unnumbered *)
Variable host_bits : list uintf -> list uintf.             (* check_interface_host_bits *)

Inductive uerror := BadPrefix (af : string) | SmallPrefix (af : string) | BadPolicy (af : string) | BadIndex (af node : string) | NoAddress (af : string).
Definition ipam_names : list string := ["unnumbered"; "p2p"; "sequential"; "id_based"; "loopback"].

(* augment/links.py:684-733 assign_interface_addresses: one address family. None - KeyError in IPAM_dispatch, after BadPolicy was reported *)
Definition assign_af (four : bool) (l : ulink) (pfx : dict val) : option (ulink * list uerror) :=
  let af := if four then "ipv4" else "ipv6" in
  match dget af pfx with
  | None => Some (l, [])
  | Some (VBool b) =>
      let (m, e) := ipam_unnumbered four (Some b) (ul_intf l) in
      Some (mk_ul (ul_prefix l) (ul_unn l) m, map (BadIndex af) e)
  | Some v =>
      match parse_net v with
      | None => Some (l, [BadPrefix af])
      | Some n =>
          let pol := match dget "allocation" pfx with Some (VStr a) => a | Some _ => "" | None => policy n l end in
          if String.eqb pol "error" then Some (l, [SmallPrefix af])
          else if String.eqb pol "unnumbered" then
            let (m, e) := ipam_unnumbered four None (ul_intf l) in
            Some (mk_ul (ul_prefix l) (ul_unn l) m, map (BadIndex af) e)
          else if memS pol ipam_names then
            let (m, ok) := ipam pol four n (ul_intf l) in
            Some (mk_ul (ul_prefix l) (ul_unn l) m, if ok then [] else [NoAddress af])
          else None
      end
  end.

(* augment/links.py:665-737 assign_interface_addresses *)
Definition assign_addresses (l : ulink) : option (ulink * list uerror) :=
  match ul_prefix l with
  | None => Some (l, [])
  | Some [] => Some (l, [])
  | Some pfx =>
      if dmem "unnumbered" pfx then
        let (m4, e4) := ipam_unnumbered true None (ul_intf l) in
        let (m6, e6) := ipam_unnumbered false None m4 in
        Some (mk_ul None false m6, map (BadIndex "ipv4") e4 ++ map (BadIndex "ipv6") e6)
      else
        match assign_af true l pfx with
        | None => None
        | Some (l1, e1) =>
            match assign_af false l1 pfx with
            | None => None
            | Some (l2, e2) =>
                match e1 ++ e2 with
                | [] => Some (mk_ul (ul_prefix l2) (ul_unn l2) (host_bits (ul_intf l2)), [])
                | e => Some (l2, e)
                end
            end
        end
  end.
End Unnumbered.

Definition has_slash (s : string) : bool := existsb (Ascii.eqb "/") (list_ascii_of_string s).

(* augment/links.py:742-769 cleanup_link_interface_AF_entries: one interface and address family; [bool] - an error. Addresses are
   booleans, integers and texts. *)
Definition cleanup_af (four : bool) (i : uintf) : uintf * bool :=
  match uget four i with
  | None => (i, false)
  | Some (VBool false) => (uset four None i, false)
  | Some (VBool true) => (i, false)
  | Some (VInt _) => (i, true)
  | Some (VStr s) => (i, negb (has_slash s))
  | Some _ => (i, true)
  end.

(* augment/links.py:742-769 cleanup_link_interface_AF_entries; errors - address families and nodes *)
Definition cleanup_link (l : list uintf) : list uintf * list (bool * string) :=
  let clean four m := (map (fun i => fst (cleanup_af four i)) m, flat_map (fun i => if snd (cleanup_af four i) then [(four, u_node i)] else []) m) in
  let (m4, e4) := clean true l in
  let (m6, e6) := clean false m4 in
  (m6, e4 ++ e6).
