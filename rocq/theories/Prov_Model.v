(* Model of netsim/providers/__init__.py: the primary provider, providers of nodes and links, and management addresses.
   Definitions only. *)
From Coq Require Import String Ascii ZArith Bool List.
From Verif Require Import Base Box_Model.
Import ListNotations.
Local Open Scope string_scope.
Local Open Scope list_scope.

(* a node: provider, unmanaged *)
Record pnode := mk_pn { pn_prov : option string; pn_unm : bool }.
(* a topology: provider, default provider, nodes *)
Record ptopo := mk_pt { pt_prov : string; pt_def : string; pt_nodes : dict pnode }.

(* augment/devices.py:108-109 get_provider *)
Definition get_provider (def : string) (n : pnode) : string := match pn_prov n with Some p => p | None => def end.

(* providers/__init__.py:271-273 select_primary_provider: the only element of the set of providers *)
Definition single (used : list string) : option string :=
  match used with
  | [] => None
  | u :: r => if forallb (String.eqb u) r then Some u else None
  end.

(* providers/__init__.py:294-296 select_primary_provider *)
Definition pin (p : string) (n : pnode) : pnode := match pn_prov n with Some _ => n | None => mk_pn (Some p) (pn_unm n) end.
Definition pin_all (p : string) (nodes : dict pnode) : dict pnode := map (fun x => (fst x, pin p (snd x))) nodes.

(* providers/__init__.py:266-301 select_primary_provider; the flag - a warning; [multi] - defaults.const.multi_provider *)
Definition select_primary (multi : list string) (t : ptopo) : ptopo * bool :=
  let used := map (fun x => get_provider (pt_prov t) (snd x)) (pt_nodes t) in
  let mixed :=
    match filter (fun p => memS p used) multi with
    | [] => (t, false)
    | top :: _ => if String.eqb top (pt_prov t) then (t, false)
                  else (mk_pt top top (pin_all (pt_prov t) (pt_nodes t)), true)
    end in
  match single used with
  | Some u => if String.eqb (pt_prov t) u then mixed else (mk_pt u (pt_def t) (pt_nodes t), true)
  | None => mixed
  end.

(* a link: nodes of its interfaces, providers *)
Record plink := mk_pl { pl_nodes : list string; pl_prov : dict bool }.

(* providers/__init__.py:340-345 mark_providers: one link *)
Definition mark_link (nodes : dict pnode) (prov : string) (l : plink) : plink :=
  mk_pl (pl_nodes l)
        (fold_left (fun d x => match dget x nodes with Some n => dset (get_provider prov n) true d | None => d end) (pl_nodes l) (pl_prov l)).

(* providers/__init__.py:333-345 mark_providers *)
Definition mark_providers (t : ptopo) (links : list plink) : ptopo * list plink :=
  let nodes := pin_all (pt_prov t) (pt_nodes t) in
  (mk_pt (pt_prov t) (pt_def t) nodes, map (mark_link nodes (pt_prov t)) links).

(* providers/__init__.py:350-358 select_topology *)
Definition select_topology (t : ptopo) (links : list plink) (p : string) : ptopo * list plink :=
  (mk_pt (pt_prov t) (pt_def t)
         (map (fun x => (fst x, if match pn_prov (snd x) with Some q => String.eqb q p | None => false end then snd x
                                else mk_pn (pn_prov (snd x)) true)) (pt_nodes t)),
   filter (fun l => dmem p (pl_prov l)) links).

Inductive merr := MNone | MPool (af : string) | MSubnet (af : string).

(* an address or a prefix: a number and a prefix length; [bits] - address length *)
Definition network (bits a len : Z) : Z := (a / 2 ^ (bits - len))%Z.
Definition in_subnet (bits : Z) (a p : Z * Z) : bool :=
  (snd p <=? snd a)%Z && (network bits (fst a) (snd p) =? network bits (fst p) (snd p))%Z.

(* providers/__init__.py:393-426 validate_mgmt_ip; [addr] - addresses of the node, [pool] - prefixes of the management pool,
   None - no pool *)
Definition mgmt_af (addr pool : dict (Z * Z)) (af : string) (bits : Z) : list merr :=
  match dget af addr with
  | None => []
  | Some a => match dget af pool with
              | None => [MPool af]
              | Some p => if in_subnet bits a p then [] else [MSubnet af]
              end
  end.

Definition validate_mgmt (addr : dict (Z * Z)) (pool : option (dict (Z * Z))) (required v4only : bool) : list merr :=
  let valid := if v4only then ["ipv4"] else ["ipv4"; "ipv6"] in
  (if negb (existsb (fun af => memS af valid) (dkeys addr)) && required then [MNone] else []) ++
  match pool with
  | None => []
  | Some p => mgmt_af addr p "ipv4" 32 ++ mgmt_af addr p "ipv6" 128
  end.
