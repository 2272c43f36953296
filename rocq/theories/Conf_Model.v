(* Model of netsim/extra/check.config/plugin.py and netsim/extra/proxy-arp/plugin.py:
   plugins that work with custom configuration templates. Definitions only. *)
From Coq Require Import String Ascii ZArith Bool List.
From Verif Require Import Base Box_Model Text_Model.
Import ListNotations.
Local Open Scope string_scope.
Local Open Scope list_scope.

(* a node: name, device, custom configuration templates *)
Record cnode := mk_cn { cn_name : string; cn_device : string; cn_config : option (list string) }.
(* a missing template: name, nodes for every device *)
Record cmiss := mk_cm { cm_item : string; cm_devices : dict (list string) }.

(* extra/check.config/plugin.py:16-19 cleanup *)
Definition candidates (n : cnode) : list string :=
  [(cn_name n ++ "." ++ cn_device n ++ ".j2")%string; (cn_name n ++ ".j2")%string; (cn_device n ++ ".j2")%string].

Section Check.
Variable find : string -> bool.                            (* a template is found in paths.custom.dirs *)

(* extra/check.config/plugin.py:22-26 cleanup *)
Definition found (n : cnode) (cfg : string) : bool := existsb (fun c => find (cfg ++ "/" ++ c)%string) (candidates n).

Definition add_node (x : string) (l : list string) : list string := if memS x l then l else l ++ [x].

(* extra/check.config/plugin.py:31-33 cleanup *)
Definition add_missing (n : cnode) (cfg : string) (m : dict cmiss) : dict cmiss :=
  let id := make_id cfg in
  let dv := match dget id m with Some x => cm_devices x | None => [] end in
  let l := match dget (cn_device n) dv with Some l => l | None => [] end in
  dset id (mk_cm cfg (dset (cn_device n) (add_node (cn_name n) l) dv)) m.

(* extra/check.config/plugin.py:21-34 cleanup: the templates of a node; the loop ends with the first template that is found *)
Fixpoint check_list (n : cnode) (todo cfgs : list string) (m : dict cmiss) : list string * dict cmiss :=
  match todo with
  | [] => (cfgs, m)
  | c :: r => if found n c then (cfgs, m)
              else check_list n r (filter (fun f => negb (String.eqb f c)) cfgs) (add_missing n c m)
  end.

(* extra/check.config/plugin.py:12-34 cleanup: one node *)
Definition check_node (n : cnode) (m : dict cmiss) : cnode * dict cmiss :=
  match cn_config n with
  | None => (n, m)
  | Some l => let '(l', m') := check_list n l l m in (mk_cn (cn_name n) (cn_device n) (Some l'), m')
  end.

Fixpoint check_nodes (nodes : list cnode) (m : dict cmiss) : list cnode * dict cmiss :=
  match nodes with
  | [] => ([], m)
  | n :: r => let '(n', m1) := check_node n m in
              let '(r', m2) := check_nodes r m1 in
              (n' :: r', m2)
  end.

(* extra/check.config/plugin.py:36-41 cleanup: warnings *)
Definition warnings (m : dict cmiss) : list (string * string * list string) :=
  flat_map (fun x => map (fun d => (cm_item (snd x), fst d, snd d)) (cm_devices (snd x))) m.

(* extra/check.config/plugin.py:10-41 cleanup *)
Definition check_config (nodes : list cnode) : list cnode * list (string * string * list string) :=
  let '(r, m) := check_nodes nodes [] in (r, warnings m).
End Check.

(* an interface: type, VRF, addresses, proxy ARP; a node: interfaces, needs the template *)
Record aintf := mk_ai { ai_type : string; ai_vrf : option string; ai_v4 : bool; ai_v6 : bool; ai_proxy : bool }.
Record anode := mk_an { an_intf : list aintf; an_config : bool }.

(* extra/proxy-arp/plugin.py:16-31 post_transform; [vrfs] - VRFs of the topology, with a proxy_arp attribute or without it *)
Definition proxy_intf (vrfs : dict bool) (i : aintf) : bool :=
  memS (ai_type i) ["lan"; "p2p"; "svi"] &&
  match ai_vrf i with
  | Some v => memS v (map fst (filter snd vrfs))
  | None => false
  end && (ai_v4 i || ai_v6 i).

Definition proxy_node (vrfs : dict bool) (n : anode) : anode :=
  mk_an (map (fun i => if proxy_intf vrfs i then mk_ai (ai_type i) (ai_vrf i) (ai_v4 i) (ai_v6 i) true else i) (an_intf n))
        (an_config n || existsb (proxy_intf vrfs) (an_intf n)).

Definition proxy_arp (vrfs : dict bool) (nodes : list anode) : list anode := match vrfs with [] => nodes | _ => map (proxy_node vrfs) nodes end.
