(* Model of netsim/extra/bgp.domain/plugin.py: IBGP sessions within BGP domains. Definitions only.
   IBGP neighbors are nodes of the topology. *)
From Coq Require Import String Ascii ZArith Bool List.
From Verif Require Import Base Box_Model Text_Model.
From Verif Require Vrf_Model.
Import ListNotations.
Local Open Scope string_scope.
Local Open Scope list_scope.

(* a BGP neighbor *)
Record dngb := mk_dg { dg_name : string; dg_type : string; dg_rr : bool }.
(* a node: runs BGP, domain, AS number, route reflector, neighbors *)
Record dnode := mk_dn { dn_bgp : bool; dn_domain : option string; dn_as : Z; dn_rr : bool; dn_ngb : list dngb }.

(* extra/bgp.domain/plugin.py:23 post_transform: ndata.get('bgp.domain','default') *)
Definition domain (n : dnode) : string := match dn_domain n with Some d => d | None => "default" end.
Definition domain_of (nodes : dict dnode) (name : string) : string := match dget name nodes with Some n => domain n | None => "default" end.

(* extra/bgp.domain/plugin.py:24-25 post_transform *)
Definition domain_as (n : dnode) : string := (domain n ++ String ":" (Vrf_Model.zdec (dn_as n)))%string.

(* extra/bgp.domain/plugin.py:33-45 post_transform: an IBGP session between domains *)
Definition is_cross (nodes : dict dnode) (n : dnode) (g : dngb) : bool :=
  String.eqb (dg_type g) "ibgp" && negb (String.eqb (domain_of nodes (dg_name g)) (domain n)).

(* extra/bgp.domain/plugin.py:20-47 post_transform: neighbors of a node *)
Definition prune (nodes : dict dnode) (n : dnode) : dnode :=
  if dn_bgp n then mk_dn (dn_bgp n) (dn_domain n) (dn_as n) (dn_rr n) (filter (fun g => negb (is_cross nodes n g)) (dn_ngb n)) else n.

(* extra/bgp.domain/plugin.py:20-47 post_transform: route reflectors of domains *)
Definition node_flags (nodes : dict dnode) (flags : dict bool) (n : dnode) : dict bool :=
  if dn_bgp n then
    fold_left (fun f g => if is_cross nodes n g && dg_rr g && negb (dmem (domain_as n) f) then dset (domain_as n) false f else f) (dn_ngb n)
      (if dn_rr n then dset (domain_as n) true flags else flags)
  else flags.

Definition rr_flags (nodes : dict dnode) : dict bool := fold_left (node_flags nodes) (map snd nodes) [].

(* extra/bgp.domain/plugin.py:49-60 post_transform: an error has a domain and an AS number; None - the name cannot be split *)
Fixpoint flag_errors (flags : dict bool) : option (list (string * string)) :=
  match flags with
  | [] => Some []
  | (k, true) :: r => flag_errors r
  | (k, false) :: r => match split ":" k with
                       | [d; a] => match flag_errors r with Some l => Some ((d, a) :: l) | None => None end
                       | _ => None
                       end
  end.

(* extra/bgp.domain/plugin.py:16-60 post_transform *)
Definition bgp_domains (nodes : dict dnode) : dict dnode * option (list (string * string)) :=
  (map (fun x => (fst x, prune nodes (snd x))) nodes, flag_errors (rr_flags nodes)).
