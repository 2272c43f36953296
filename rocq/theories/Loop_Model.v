(* Model of netsim/extra/bgp.originate/plugin.py and netsim/extra/mlag.vtep/plugin.py: loopback links made by plugins.
   Definitions only. Existing links are described by their indexes (bgp.originate), or by MLAG peer groups and
   nodes (mlag.vtep). *)
From Coq Require Import String Ascii ZArith Bool List.
From Verif Require Import Base Box_Model.
From Verif Require Vrf_Model Mhop_Model.
Import ListNotations.
Local Open Scope string_scope.
Local Open Scope list_scope.

(* a node: runs BGP, prefixes to originate (after validation) *)
Record onode := mk_on { on_name : string; on_bgp : bool; on_orig : option (list (dict val)) }.
(* a loopback link: node, name, link name, index, prefix, addresses of the interface, advertised *)
Record olink := mk_ol { ol_node : string; ol_name : string; ol_linkname : string; ol_index : Z; ol_prefix : dict val; ol_addr : dict val; ol_adv : bool }.

(* extra/bgp.originate/plugin.py:27-41 post_node_transform: one entry; [k] - position in the list *)
Definition orig_link (node : string) (k : nat) (idx : Z) (e : dict val) : olink :=
  let no := Vrf_Model.zdec (Z.of_nat k + 1) in
  fold_left (fun l af => match dget af e with
                         | Some p => mk_ol (ol_node l) (ol_name l) (ol_linkname l) (ol_index l) (dset af p (ol_prefix l)) (dset af (VInt 1) (ol_addr l)) true
                         | None => l
                         end) ["ipv4"; "ipv6"]
    (mk_ol node ("BGP originate #" ++ no)%string ("bgp.originate." ++ node ++ "[" ++ no ++ "]")%string idx [] [] false).

(* extra/bgp.originate/plugin.py:26-41 post_node_transform: the links are appended to the links of the topology; [links] - all link indexes *)
Fixpoint orig_links (first : Z) (node : string) (k : nat) (l : list (dict val)) (links : list Z) : list Z * list olink :=
  match l with
  | [] => (links, [])
  | e :: r => let idx := Mhop_Model.next_linkindex first links in
              let '(links', ls) := orig_links first node (S k) r (links ++ [idx]) in
              (links', orig_link node k idx e :: ls)
  end.

(* extra/bgp.originate/plugin.py:17-43 post_node_transform *)
Fixpoint originate (first : Z) (nodes : list onode) (links : list Z) : list Z * list olink * list onode :=
  match nodes with
  | [] => (links, [], [])
  | n :: r =>
      match on_bgp n, on_orig n with
      | true, Some (e :: l) =>
          let '(links1, new) := orig_links first (on_name n) 0 (e :: l) links in
          let '(links2, new2, r2) := originate first r links1 in
          (links2, new ++ new2, mk_on (on_name n) true None :: r2)
      | _, _ => let '(links2, new2, r2) := originate first r links in (links2, new2, n :: r2)
      end
  end.

(* a link: part of an MLAG peer group, its nodes *)
Record mlink := mk_ml { ml_peer : bool; ml_nodes : list string }.
(* a node: lag.mlag.vtep, uses VXLAN *)
Record mnode := mk_mn { mn_vtep : option bool; mn_vxlan : bool }.
(* a shared loopback: node, address, link name *)
Record vlink := mk_vl { vl_node : string; vl_addr : string; vl_name : string }.

Section Mlag.
Variable alloc : nat -> string.                            (* network addresses from the pool, in the order of allocation *)
Variable nodes : dict mnode.

(* extra/mlag.vtep/plugin.py:34-43 pre_link_transform: one peer *)
Definition vtep_peer (addr : string) (peers : list string) (n : string) : list vlink :=
  match dget n nodes with
  | Some m => match mn_vtep m with
              | Some false => []
              | _ => if mn_vxlan m then [mk_vl n (addr ++ "/32")%string ("MLAG VTEP VXLAN interface shared between " ++ String.concat " - " peers)%string] else []
              end
  | None => []
  end.

(* extra/mlag.vtep/plugin.py:27-43 pre_link_transform: all links; [k] - addresses allocated so far *)
Fixpoint vtep_links (k : nat) (l : list mlink) : list vlink :=
  match l with
  | [] => []
  | x :: r => if ml_peer x then flat_map (vtep_peer (alloc k) (ml_nodes x)) (ml_nodes x) ++ vtep_links (S k) r else vtep_links k r
  end.
End Mlag.
