(* Model of links created from other data: VLAN access links (netsim/modules/vlan.py) and members of LAG links
   (netsim/modules/lag.py). Definitions only. *)
From Coq Require Import String Ascii ZArith Bool List.
From Verif Require Import Base Box_Model Dev_Model Ndev_Model.
Import ListNotations.
Local Open Scope string_scope.
Local Open Scope list_scope.

(* link.linkindex; all links have an integer index *)
Definition index_of (l : dict val) : Z := match dget "linkindex" l with Some (VInt z) => z | _ => 0%Z end.

(* links.py:1105-1110 get_next_linkindex; [first]: defaults.link_index *)
Definition next_index (first : Z) (links : list (dict val)) : Z :=
  match links with [] => first | a :: r => (index_of (last links a) + 1)%Z end.

(* ---- links of VLANs ---- *)

Section VlanLinks.
(* links.adjust_link_object with the name made from the VLAN name and the position: None when the link has an error *)
Variable adjust : string -> nat -> val -> option (dict val).
Variable first : Z.

(* vlan.py:1201-1204 one link of a VLAN *)
Definition access_of (vname : string) (d : dict val) : dict val :=
  dset "vlan" (VDict (dset "access" (VStr vname) (rdd "vlan" d))) d.

(* vlan.py:1196-1204 the links of a VLAN from position [cnt] on *)
Fixpoint add_links (vname : string) (cnt : nat) (ls : list val) (links : list (dict val)) : list (dict val) :=
  match ls with
  | [] => links
  | l :: r =>
      match adjust vname (S cnt) l with
      | None => add_links vname (S cnt) r links
      | Some d =>
          add_links vname (S cnt) r (links ++ [dset "linkindex" (VInt (next_index first links)) (access_of vname d)])
      end
  end.

(* vlan.py:1187-1206 create_vlan_access_links: VLANs and links; the links of a VLAN are a list *)
Fixpoint access_links (vlans : dict val) (links : list (dict val)) : dict val * list (dict val) :=
  match vlans with
  | [] => ([], links)
  | (n, VDict d) :: r =>
      match dget "links" d with
      | None => let t := access_links r links in ((n, VDict d) :: fst t, snd t)
      | Some ls =>
          let t := access_links r (add_links n 0 (match ls with VList l => l | _ => [] end) links) in
          ((n, VDict (dpop "links" d)) :: fst t, snd t)
      end
  | p :: r => let t := access_links r links in (p :: fst t, snd t)
  end.
End VlanLinks.

(* ---- member links of LAG links ---- *)

Definition only (keep : list string) (d : dict val) : dict val := filter (fun p => memS (fst p) keep) d.

(* lag.py:40-45 create_l2_link_base; [attrs]: lag_l2_linkattr *)
Definition l2_base (attrs : list string) (l : dict val) : dict val :=
  fold_left (fun b a => match dget a l with Some v => dset a v b | None => b end) attrs
    [("type", VStr "p2p"); ("prefix", VBool false); ("lag", VDict [])].

(* lag.py:164-167 one member; [keep]: lag_member_linkattr, [parent]: index of the LAG link, [idx]: index of the new link *)
Definition member_link (base : dict val) (keep : list string) (parent : val) (idx : Z) (m : dict val) : dict val :=
  let d := entries (merge (VDict base) (VDict (only keep m))) in
  let d := dset "linkindex" (VInt idx) d in
  let d := dset "interfaces"
             (VList (map (fun i => VDict (only ["node"; "ifindex"] (entries i)))
                       (match dget "interfaces" d with Some (VList l) => l | _ => [] end))) d in
  dset "lag" (VDict (dset "_parentindex" parent (rdd "lag" d))) d.

(* lag.py:154-171 create_lag_member_links after normalized_members: the links of the topology *)
Fixpoint member_links (base : dict val) (keep : list string) (parent : val) (ms : list (dict val)) (links : list (dict val))
  : list (dict val) :=
  match ms with
  | [] => links
  | m :: r => member_links base keep parent r (links ++ [member_link base keep parent (Z.of_nat (length links) + 1)%Z m])
  end.
