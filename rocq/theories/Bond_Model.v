(* Model of netsim/extra/bonding/plugin.py. Definitions only. The names of bond interfaces are made by a function given from
   outside, applied to an interface index. Error messages are the interfaces they are about. *)
From Coq Require Import String ZArith Bool List.
From Verif Require Import Base Box_Model.
Import ListNotations.
Local Open Scope string_scope.
Local Open Scope list_scope.

(* bonding.ifindex, bonding.mode and bonding.primary of an interface *)
Record breq := mk_br { br_index : Z; br_mode : option string; br_primary : bool }.

(* an interface of a node; of the neighbors only the names of nodes are kept, the names of their interfaces are in the
   second part of the model *)
Record bintf := mk_bi {
  bi_name : string; bi_ifname : string; bi_ifindex : Z; bi_link : nat; bi_virtual : bool;
  bi_req : option breq; bi_ngb : list string;
  bi_attr : dict val                                       (* all other attributes *)
}.

(* the data collected for a bond *)
Record bond := mk_bd {
  bd_members : list string; bd_mode : string; bd_ngb : list string; bd_primary : option string; bd_attr : dict val
}.

(* an interface made for a bond *)
Record bondif := mk_bo { bo_ifname : string; bo_index : Z; bo_ifindex : Z; bo_bond : bond }.

Inductive berr := BDevice (i : string) | BLink (i : string).

(* extra/bonding/plugin.py:9 ATTS_TO_MOVE *)
Definition ATTS_TO_MOVE : list string := ["ipv4"; "ipv6"; "vlan"; "_vlan_mode"; "vlan_name"; "gateway"].

Section Bonding.
Variable fmt : Z -> string.                                (* bond_interface_name with the index *)
Variable nodes_on : nat -> nat.                            (* node_count of the links *)

Fixpoint bget (k : Z) (l : list (Z * bond)) : option bond :=
  match l with
  | [] => None
  | (k', b) :: r => if Z.eqb k k' then Some b else bget k r
  end.

Fixpoint bset (k : Z) (b : bond) (l : list (Z * bond)) : list (Z * bond) :=
  match l with
  | [] => [(k, b)]
  | (k', b') :: r => if Z.eqb k k' then (k, b) :: r else (k', b') :: bset k b r
  end.

(* the attributes that are moved, and the remaining ones *)
Definition moved (d : dict val) : dict val :=
  flat_map (fun a => match dget a d with Some v => [(a, v)] | None => [] end) ATTS_TO_MOVE.
Definition left_over (d : dict val) : dict val := fold_left (fun d a => dpop a d) ATTS_TO_MOVE d.

Definition set_attr (d : dict val) (i : bintf) : bintf :=
  mk_bi (bi_name i) (bi_ifname i) (bi_ifindex i) (bi_link i) (bi_virtual i) (bi_req i) (bi_ngb i) d.

(* extra/bonding/plugin.py:44-48 update_neighbors: a bond member has to be on a link between two nodes *)
Definition on_p2p (i : bintf) : bool := negb (bi_virtual i) && Nat.eqb (nodes_on (bi_link i)) 2.

(* extra/bonding/plugin.py:88-101 post_link_transform: an interface becomes a member of its bond *)
Definition add_member (mode : string) (r : breq) (i : bintf) (bonds : list (Z * bond)) : list (Z * bond) :=
  let b := match bget (br_index r) bonds with
           | Some b => mk_bd (bd_members b ++ [bi_ifname i]) (bd_mode b) (bd_ngb b) (bd_primary b) (bd_attr b)
           | None => mk_bd [bi_ifname i] (match br_mode r with Some m => m | None => mode end) (bi_ngb i) None (moved (bi_attr i))
           end in
  let b := if br_primary r then mk_bd (bd_members b) (bd_mode b) (bd_ngb b) (Some (bi_ifname i)) (bd_attr b) else b in
  bset (br_index r) b bonds.

Record bstate := mk_bs { bs_done : list bintf; bs_bonds : list (Z * bond); bs_err : list berr }.

(* extra/bonding/plugin.py:75-102 post_link_transform: one interface; [feat] - the device has the feature *)
Definition member_step (feat : bool) (mode : string) (s : bstate) (i : bintf) : bstate :=
  match bi_req i with
  | None => mk_bs (bs_done s ++ [i]) (bs_bonds s) (bs_err s)
  | Some r =>
      if negb feat then mk_bs (bs_done s ++ [i]) (bs_bonds s) (bs_err s ++ [BDevice (bi_name i)])
      else if negb (on_p2p i) then mk_bs (bs_done s ++ [i]) (bs_bonds s) (bs_err s ++ [BLink (bi_name i)])
      else mk_bs (bs_done s ++ [set_attr (dset "prefix" (VBool false) (left_over (bi_attr i))) i])
                 (add_member mode r i (bs_bonds s)) (bs_err s)
  end.

(* extra/bonding/plugin.py:14-37 add_bond_interfaces *)
Fixpoint bond_interfaces (c : Z) (l : list (Z * bond)) : list bondif :=
  match l with
  | [] => []
  | (k, b) :: r => mk_bo (fmt k) k (50000 + c)%Z b :: bond_interfaces (c + 1)%Z r
  end.

(* extra/bonding/plugin.py:69-107 post_link_transform: one node: the interfaces, the bond interfaces, the errors and
   whether the node gets the extra configuration *)
Definition bond_node (feat : bool) (mode : option string) (l : list bintf) : list bintf * list bondif * list berr * bool :=
  let s := fold_left (member_step feat (match mode with Some m => m | None => "active-backup" end)) l (mk_bs [] [] []) in
  (bs_done s, bond_interfaces 0 (bs_bonds s), bs_err s, match bs_bonds s with [] => false | _ => true end).

(* ---------- names of interfaces of neighbors ---------- *)

(* a new member of a bond: its node, its link and its own interface index *)
Record bevent := mk_be { be_node : string; be_link : nat; be_ifindex : Z }.

(* links: the nodes on them and the names of their interfaces; nodes: the neighbors on each interface *)
Record names := mk_nm {
  nm_links : list (list (string * string));
  nm_nodes : list (string * list (list (string * string)))
}.

Definition rename (n name : string) (l : list (string * string)) : list (string * string) :=
  map (fun x => if String.eqb (fst x) n then (fst x, name) else x) l.

Fixpoint update_nth {A} (n : nat) (f : A -> A) (l : list A) : list A :=
  match l, n with
  | [], _ => []
  | x :: r, O => f x :: r
  | x :: r, S n => x :: update_nth n f r
  end.

(* extra/bonding/plugin.py:43-63 update_neighbors: links are numbered from 1 in netlab, from 0 in the model *)
Definition update_neighbors (s : names) (e : bevent) : names :=
  let name := fmt (be_ifindex e) in
  let others := filter (fun n => negb (String.eqb n (be_node e))) (map fst (nth (be_link e) (nm_links s) [])) in
  mk_nm (update_nth (be_link e) (rename (be_node e) name) (nm_links s))
        (map (fun nd => if memS (fst nd) others then (fst nd, map (rename (be_node e) name) (snd nd)) else nd) (nm_nodes s)).

Definition rename_all (l : list bevent) (s : names) : names := fold_left update_neighbors l s.

(* the members found by post_link_transform, in the order of nodes and interfaces *)
Definition events (l : list (string * bool * list bintf)) : list bevent :=
  flat_map (fun '(n, feat, il) =>
    flat_map (fun i => match bi_req i with
                       | Some _ => if feat && on_p2p i then [mk_be n (bi_link i) (bi_ifindex i)] else []
                       | None => []
                       end) il) l.
End Bonding.
