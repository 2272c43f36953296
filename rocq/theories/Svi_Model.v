(* Model of VLAN interfaces: netsim/modules/vlan.py, module_post_link_transform. Definitions only.
   A Python exception or a fatal error is the value None. The VLAN-related attributes, the neighbors and the
   identifiers of an interface are record fields, everything else is in a dictionary. VLAN data have no ifindex, ifname,
   neighbors and vlan attributes; their internal attributes (bridge_group, _global_merge) are not copied to interfaces. *)
From Coq Require Import String ZArith Bool List.
From Verif Require Import Base Box_Model.
Import ListNotations.
Open Scope Z_scope.

(* The vlan dictionary of an interface *)
Record vlanp := mk_vp {
  p_access : option string; p_native : option string; p_mode : option string; p_trunk : list string;
  p_access_id : option Z; p_trunk_id : option (list Z); p_name : option string; p_routed : bool }.

(* An element of a neighbor list *)
Record vngb := mk_vg { g_node : string; g_ifname : string; g_v4 : option val; g_v6 : option val }.

(* An interface. [i_link]: linkindex; [i_parent]: parentindex (Some None: 'loopback'); [i_loop]: _selfloop_ifindex;
   [i_fwd]: _vlan_mode; [i_vname]: vlan_name; [i_saved]: _vlan_saved_neighbors; [i_sub]: subif_index;
   [i_pidx], [i_pname]: parent_ifindex, parent_ifname; [i_native]: _vlan_native *)
Record vintf := mk_vi {
  i_index : Z; i_type : string; i_ifname : string; i_link : option nat; i_parent : option (option nat); i_loop : nat;
  i_fwd : option string; i_vlan : vlanp; i_vname : option string; i_ngb : list vngb; i_saved : option (list vngb);
  i_sub : option Z; i_pidx : option Z; i_pname : option string; i_native : option string; i_attr : dict val }.

(* VLAN data of a node or of the topology. [nv_bg]: bridge_group *)
Record nvlan := mk_nv { nv_id : Z; nv_mode : option string; nv_type : option string; nv_bg : option Z; nv_attr : dict val }.

(* The node: name, vlan.mode, modules, mtu, and the device features *)
Record vnode := mk_vnode {
  vn_name : string; vn_mode : option string; vn_mods : list string; vn_mtu : option val;
  vn_svi : bool;            (* the device has svi_interface_name *)
  vn_sysmtu : bool; vn_switch : bool; vn_router : bool;   (* 'switch' / 'router' or 'l3-switch' in vlan.model *)
  vn_subif : bool; vn_first : option Z; vn_native_routed : bool; vn_mixed : bool }.

(* The topology: global VLANs, vlan.mode, modules, attribute lists of vlan.yml *)
Record vtop := mk_vtop {
  vt_vlans : dict nvlan; vt_mode : option string; vt_mods : list string;
  vt_phy : list string;     (* phy_ifattr and providers *)
  vt_svi_skip : list string; (* vlan_no_propagate and vlan_svi_no_propagate without mode *)
  vt_keep : list string }.  (* keep_subif *)

Inductive verror :=
| ENoSvi (v : string) | EIndex | ERoutedSub (v : option string) | ENativeRouted (v : string)
| EMixedTrunk (idx : Z) | EMixedNative (name : string).

(* x or y for texts *)
Definition or_text (x y : option string) : option string :=
  match x with Some s => if String.eqb s "" then y else x | None => y end.
Definition text (x : option string) : string := match x with Some s => s | None => ""%string end.

Section Fmt.
Variable svi_fmt : Z -> option Z -> string -> string.     (* features.vlan.svi_interface_name.format *)
Variable svi_desc : string -> Z -> string.                (* the description of a VLAN interface *)
Variable sub_fmt : vintf -> vintf -> string.              (* features.vlan.subif_name.format: parent, subinterface *)
Variable t : vtop.
Variable nd : vnode.

(* ---- node VLANs and bridge groups ---- *)

(* vlan.py:486-508 populate_node_vlan for a VLAN that is not defined on the node *)
Definition populated (g : nvlan) : nvlan :=
  mk_nv (nv_id g)
    (Some (text (or_text (vn_mode nd) (or_text (nv_mode g) (or_text (vt_mode t) (Some "irb"%string))))))
    (nv_type g) (nv_bg g)
    (filter (fun kv => memS (fst kv) (vn_mods nd) || negb (memS (fst kv) (vt_mods t))) (nv_attr g)).

Definition set_bg (x : nvlan) (b : Z) : nvlan := mk_nv (nv_id x) (nv_mode x) (nv_type x) (Some b) (nv_attr x).

(* vlan.py:780-802 create_node_vlan: the VLAN data, the node VLANs and the bridge group counter. The VLANs defined on
   the node are already merged with the global ones. *)
Definition create_node_vlan (vlans : dict nvlan) (bg : option Z) (v : string) : option (nvlan * dict nvlan * option Z) :=
  match (match dget v vlans with Some x => Some x | None => option_map populated (dget v (vt_vlans t)) end) with
  | None => None
  | Some x =>
      match nv_bg x with
      | Some _ => Some (x, dset v x vlans, bg)
      | None =>
          let b := match bg with Some b => if b =? 0 then 1 else b + 1 | None => 1 end in
          Some (set_bg x b, dset v (set_bg x b) vlans, Some b)
      end
  end.

(* ---- the list of VLAN neighbors ---- *)

Definition named (n : string) (g : vngb) : bool := String.eqb (g_node g) n.

(* the last element of the list for the node (n_map keeps the last one) *)
Fixpoint fix_last (n : string) (x : vngb) (l : list vngb) : list vngb :=
  match l with
  | [] => []
  | g :: r => if existsb (named n) r then g :: fix_last n x r
              else if named n g then x :: r else g :: r
  end.

(* vlan.py:749-775 update_vlan_neighbor_list: the current list, the neighbors of the interface, and the data of the
   VLAN interface of the node *)
Definition update_neighbors (l : list vngb) (node : string) (phy : list vngb) (svi : vintf) : list vngb :=
  let me := mk_vg node (i_ifname svi) (dget "ipv4"%string (i_attr svi)) (dget "ipv6"%string (i_attr svi)) in
  let new := filter (fun g => negb (existsb (named (g_node g)) l)) phy in
  if existsb (named node) l then fix_last node me l ++ new
  else (l ++ new) ++ [me].

(* vlan.py:731-738 get_vlan_data: the list of the global VLAN, or of the node VLAN *)
Record nlists := mk_nl { nl_glob : dict (list vngb); nl_loc : dict (list vngb) }.
Definition list_of (k : string) (d : dict (list vngb)) : list vngb := match dget k d with Some l => l | None => [] end.
Definition vlan_neighbors (v : string) (nl : nlists) : list vngb :=
  if dmem v (vt_vlans t) then list_of v (nl_glob nl) else list_of v (nl_loc nl).
Definition update_list (v : string) (phy : list vngb) (svi : vintf) (nl : nlists) : nlists :=
  let l := update_neighbors (vlan_neighbors v nl) (vn_name nd) phy svi in
  if dmem v (vt_vlans t) then mk_nl (dset v l (nl_glob nl)) (nl_loc nl) else mk_nl (nl_glob nl) (dset v l (nl_loc nl)).

(* ---- VLAN interfaces ---- *)

Definition svi_start : Z := 40000.
Definition svi_count : nat := 1000.

Fixpoint free_index (n : nat) (idx : Z) (used : list Z) : option Z :=
  match n with
  | O => None
  | S m => if memZ idx used then free_index m (idx + 1) used else Some idx
  end.
(* links.py:205-227 get_unique_ifindex for type svi; whether an error was reported *)
Definition svi_index (l : list vintf) : Z * bool :=
  match free_index svi_count svi_start (map i_index (filter (fun i => String.eqb (i_type i) "svi") l)) with
  | Some i => (i, false)
  | None => (svi_start + Z.of_nat (length l) + 1, true)
  end.

Definition svi_mode (i : vintf) (x : nvlan) : string := text (or_text (p_mode (i_vlan i)) (nv_mode x)).
(* vlan.py:870-873 copy_attr *)
Definition copied (mode : string) : list string :=
  ("gateway" :: if String.eqb mode "bridge" then [] else ["ipv4"; "ipv6"])%string.

Definition is_true (v : val) : bool := match v with VBool true => true | _ => false end.
Definition keys_val (v : val) : dict val := match v with VDict d => d | _ => [] end.

(* vlan.py:870-896 the attributes of a VLAN interface *)
Definition svi_attrs (v : string) (x : nvlan) (i : vintf) : dict val :=
  let mode := svi_mode i x in
  let base := filter (fun kv => memS (fst kv) (copied mode)) (i_attr i)
              ++ [("name"%string, VStr (svi_desc v (nv_id x))); ("virtual_interface"%string, VBool true)] in
  let over := filter (fun kv => negb (memS (fst kv) (vt_svi_skip t)) && negb (memS (fst kv) (copied mode))
                                && (negb (is_true (snd kv)) || negb (memS (fst kv) (dkeys base)))) (nv_attr x) in
  let d := keys_val (merge (VDict base) (VDict over)) in
  match vn_mtu nd with
  | Some m => if negb (dmem "mtu"%string d) && negb (String.eqb mode "bridge") && negb (vn_sysmtu nd)
              then dset "mtu"%string m d else d
  | None => d
  end.

(* vlan.py:869-898 a new VLAN interface; [all]: the interfaces of the node. The type is a VLAN attribute that
   replaces the type of the interface. *)
Definition make_svi (v : string) (x : nvlan) (i : vintf) (all : list vintf) : vintf * bool :=
  match svi_index all with
  | (idx, e) =>
      (mk_vi idx (match nv_type x with Some s => s | None => "svi"%string end) (svi_fmt (nv_id x) (nv_bg x) (i_ifname i))
         None None 0%nat None
         (mk_vp None None (nv_mode x) [] None None (Some v) false)
         (i_vname i) [] None None None None None (svi_attrs v x i), e)
  end.

(* vlan.py:904-911 the physical interface with a bridged VLAN *)
Definition bridged_port (x : nvlan) (i : vintf) : vintf :=
  let p := i_vlan i in
  mk_vi (i_index i) (i_type i) (i_ifname i) (i_link i) (i_parent i) (i_loop i) None
    (mk_vp (p_access p) (p_native p) (p_mode p) (p_trunk p) (Some (nv_id x)) (p_trunk_id p) (p_name p) (p_routed p))
    None [] (Some (i_ngb i)) None None None None
    (filter (fun kv => memS (fst kv) (vt_phy t)) (i_attr i)).

(* vlan.py:839-858 the physical interface or subinterface with a routed VLAN *)
Definition routed_port (v : string) (x : nvlan) (i : vintf) : vintf :=
  let p := i_vlan i in
  let sub := String.eqb (i_type i) "vlan_member" in
  mk_vi (i_index i) (i_type i) (i_ifname i) (i_link i) (i_parent i) (i_loop i) (i_fwd i)
    (if sub then mk_vp None None (Some "route"%string) (p_trunk p) (Some (nv_id x)) (p_trunk_id p) (Some v) (p_routed p)
     else mk_vp None None (p_mode p) (p_trunk p) (p_access_id p) (p_trunk_id p) (p_name p) (p_routed p))
    (i_vname i) (i_ngb i) (i_saved i) (i_sub i) (i_pidx i) (i_pname i)
    (if sub then i_native i else match p_native p with Some n => if String.eqb n "" then i_native i else Some n | None => i_native i end)
    (keys_val (merge (VDict (filter (fun kv => negb (memS (fst kv) (vt_svi_skip t))) (nv_attr x))) (VDict (i_attr i)))).

(* the access VLAN of an interface, or its native VLAN *)
Definition port_vlan (i : vintf) : option string :=
  match (match p_access (i_vlan i) with Some a => Some a | None => p_native (i_vlan i) end) with
  | Some a => if String.eqb a "" then None else Some a
  | None => None
  end.

(* The state of create_svi_interfaces: node VLANs, bridge group counter, processed interfaces, VLAN interfaces
   (vlan_ifmap, in the order of creation), neighbor lists, errors *)
Record cstate := mk_cs {
  c_vlans : dict nvlan; c_bg : option Z; c_done : list vintf; c_svi : dict vintf; c_nl : nlists; c_errs : list verror }.

(* vlan.py:809-913 create_svi_interfaces: the loop over the initial interfaces, left at the first bridged port of a device without
   VLAN interfaces *)
Fixpoint create_svi (l : list vintf) (st : cstate) : option cstate :=
  match l with
  | [] => Some st
  | i :: r =>
      match port_vlan i with
      | None => create_svi r (mk_cs (c_vlans st) (c_bg st) (c_done st ++ [i]) (c_svi st) (c_nl st) (c_errs st))
      | Some v =>
          match i_fwd i with
          | None => None
          | Some m =>
              match create_node_vlan (c_vlans st) (c_bg st) v with
              | None => None
              | Some (x, vlans, bg) =>
                  if String.eqb m "route"
                  then create_svi r (mk_cs vlans bg (c_done st ++ [routed_port v x i]) (c_svi st) (c_nl st) (c_errs st))
                  else if negb (vn_svi nd)
                  then Some (mk_cs vlans bg (c_done st ++ l) (c_svi st) (c_nl st) (c_errs st ++ [ENoSvi v]))
                  else
                    match dget v (c_svi st) with
                    | Some s =>
                        create_svi r (mk_cs vlans bg (c_done st ++ [bridged_port x i]) (c_svi st)
                                            (update_list v (i_ngb i) s (c_nl st)) (c_errs st))
                    | None =>
                        match make_svi v x i (c_done st ++ l ++ map snd (c_svi st)) with
                        | (s, e) =>
                            create_svi r (mk_cs vlans bg (c_done st ++ [bridged_port x i]) (c_svi st ++ [(v, s)])
                                                (update_list v (i_ngb i) s (c_nl st))
                                                (c_errs st ++ if e then [EIndex] else []))
                        end
                    end
              end
          end
      end
  end.

(* ---- trunks ---- *)

Definition set_trunk_id (i : vintf) (ids : option (list Z)) : vintf :=
  let p := i_vlan i in
  mk_vi (i_index i) (i_type i) (i_ifname i) (i_link i) (i_parent i) (i_loop i) (i_fwd i)
    (mk_vp (p_access p) (p_native p) (p_mode p) (match ids with Some _ => p_trunk p | None => [] end)
           (p_access_id p) ids (p_name p) (p_routed p))
    (i_vname i) (i_ngb i) (i_saved i) (i_sub i) (i_pidx i) (i_pname i) (i_native i) (i_attr i).

Fixpoint vlan_ids (vlans : dict nvlan) (l : list string) : option (list Z) :=
  match l with
  | [] => Some []
  | v :: r => match dget v vlans, vlan_ids vlans r with Some x, Some ids => Some (nv_id x :: ids) | _, _ => None end
  end.
(* vlan.py:944-957 map_trunk_vlans *)
Fixpoint map_trunk_vlans (vlans : dict nvlan) (l : list vintf) : option (list vintf) :=
  match l with
  | [] => Some []
  | i :: r =>
      match map_trunk_vlans vlans r with
      | None => None
      | Some r' =>
          match p_trunk (i_vlan i) with
          | [] => Some (i :: r')
          | tr => match vlan_ids vlans tr with Some ids => Some (set_trunk_id i (Some ids) :: r') | None => None end
          end
      end
  end.

(* vlan.py:990-996 remove_vlan_from_trunk *)
Definition remove_vlan (i : vintf) (id : Z) : vintf :=
  match filter (fun x => negb (x =? id)) (match p_trunk_id (i_vlan i) with Some l => l | None => [] end) with
  | [] => set_trunk_id i None
  | l => set_trunk_id i (Some l)
  end.

(* ---- subinterfaces ---- *)

Definition opt_nat_eqb (x : option nat) (y : nat) : bool := match x with Some a => Nat.eqb a y | None => false end.

(* positions of the elements of a list *)
Fixpoint positions (p : vintf -> bool) (k : nat) (l : list vintf) : list nat :=
  match l with
  | [] => []
  | i :: r => if p i then k :: positions p (S k) r else positions p (S k) r
  end.

Inductive found := NoParent | Parent (k : nat) | BadIndex.
(* vlan.py:962-972 find_parent_interface *)
Definition find_parent (i : vintf) (parent : nat) (l : list vintf) : found :=
  match positions (fun j => opt_nat_eqb (i_link j) parent) 0 l with
  | [] => NoParent
  | [k] => Parent k
  | ks => match nth_error ks (i_loop i) with Some k => Parent k | None => BadIndex end
  end.

Fixpoint replace (k : nat) (x : vintf) (l : list vintf) : list vintf :=
  match l, k with
  | [], _ => []
  | _ :: r, O => x :: r
  | y :: r, S k' => y :: replace k' x r
  end.

Definition next_sub (p : vintf) : Z :=
  match i_sub p with
  | Some n => n + 1
  | None => match vn_first nd with Some n => if n =? 0 then 1 else n | None => 1 end
  end.
Definition set_sub (p : vintf) (n : Z) : vintf :=
  mk_vi (i_index p) (i_type p) (i_ifname p) (i_link p) (i_parent p) (i_loop p) (i_fwd p) (i_vlan p) (i_vname p)
    (i_ngb p) (i_saved p) (Some n) (i_pidx p) (i_pname p) (i_native p) (i_attr p).

(* vlan.py:1041-1067 the subinterface; [routed]: the VLAN link has only routed interfaces *)
Definition subinterface (p i : vintf) (routed : bool) : vintf :=
  let q := i_vlan i in
  mk_vi (i_index i) (i_type i) (sub_fmt p i) None None 0%nat (i_fwd i)
    (mk_vp (p_access q) (p_native q) (p_mode q) (p_trunk q) (p_access_id q) (p_trunk_id q) (p_name q)
           (p_routed q || routed))
    (i_vname i) (i_ngb i) (i_saved i) (i_sub i) (Some (i_index p)) (Some (i_ifname p)) (i_native i)
    (filter (fun kv => negb (memS (fst kv) (vt_phy t)) || memS (fst kv) (vt_keep t))
            (dset "virtual_interface"%string (VBool true) (i_attr i))).

(* A neighbor interface to be renamed: node, neighbor, old and new name *)
Record rename := mk_rn { rn_node : string; rn_peer : string; rn_old : string; rn_new : string }.

Record rstate := mk_rs { r_ifs : list vintf; r_loop : bool; r_nl : nlists; r_ren : list rename; r_errs : list verror }.

Definition zmem_opt (x : option Z) (l : option (list Z)) : option Z :=
  match x, l with Some a, Some ids => if memZ a ids then Some a else None | _, _ => None end.

(* vlan.py:1012-1071 one interface of rename_vlan_subinterfaces; [routed_link]: routed_access_vlan of the link of the
   interface (vlan.py:35-48) *)
Definition rename_step (vlans : dict nvlan) (routed_link : option nat -> bool) (st : rstate) (k : nat) : option rstate :=
  match nth_error (r_ifs st) k with
  | None => Some st
  | Some i =>
      if negb (String.eqb (i_type i) "vlan_member") then Some st
      else if negb (vn_router nd)
      then Some (mk_rs (r_ifs st) (r_loop st) (r_nl st) (r_ren st) (r_errs st ++ [ERoutedSub (i_vname i)]))
      else if negb (vn_subif nd) then None
      else
        match i_parent i with
        | None | Some None => Some (mk_rs (r_ifs st) true (r_nl st) (r_ren st) (r_errs st))
        | Some (Some parent) =>
            match find_parent i parent (r_ifs st) with
            | NoParent | BadIndex => None
            | Parent j =>
                match nth_error (r_ifs st) j with
                | None => None
                | Some p0 =>
                    let p := set_sub p0 (next_sub p0) in
                    let routed := match i_vname i with Some _ => routed_link (i_link i) | None => false end in
                    let s := subinterface p i routed in
                    let p' := match zmem_opt (p_access_id (i_vlan i)) (p_trunk_id (i_vlan p)) with
                              | Some a => remove_vlan p a
                              | None => p
                              end in
                    Some (mk_rs (replace k s (replace j p' (r_ifs st))) (r_loop st)
                      (match i_vname i with
                       | Some v => if routed || negb (dmem v (vt_vlans t) || dmem v vlans) then r_nl st
                                 else update_list v [] s (r_nl st)
                       | None => r_nl st
                       end)
                      (r_ren st ++ if routed then map (fun g => mk_rn (g_node g) (vn_name nd) (i_ifname i) (i_ifname s)) (i_ngb i) else [])
                      (r_errs st))
                end
            end
        end
  end.
Fixpoint rename_loop (vlans : dict nvlan) (routed_link : option nat -> bool) (st : rstate) (ks : list nat) : option rstate :=
  match ks with
  | [] => Some st
  | k :: r => match rename_step vlans routed_link st k with Some st' => rename_loop vlans routed_link st' r | None => None end
  end.
(* vlan.py:1001-1074 rename_vlan_subinterfaces *)
Definition rename_vlan_subinterfaces (vlans : dict nvlan) (routed_link : option nat -> bool) (l : list vintf) (nl : nlists) : option rstate :=
  let l1 := if vn_switch nd
            then filter (fun i => negb (String.eqb (i_type i) "vlan_member") || String.eqb (text (p_mode (i_vlan i))) "route") l
            else l in
  match rename_loop vlans routed_link (mk_rs l1 false nl [] []) (seq 0 (length l1)) with
  | None => None
  | Some st =>
      Some (mk_rs (if r_loop st then filter (fun i => match i_parent i with Some None => false | _ => true end) (r_ifs st)
                   else r_ifs st)
                  (r_loop st) (r_nl st) (r_ren st) (r_errs st))
  end.

(* ---- final checks ---- *)

(* vlan.py:1085-1102 cleanup_routed_native_vlan, one interface *)
Definition native_cleanup (vlans : dict nvlan) (i : vintf) : vintf * list verror :=
  match i_native i with
  | None => (i, [])
  | Some v =>
      if negb (String.eqb (text (i_fwd i)) "route") then (i, [])
      else
        (match dget v vlans with Some x => if nv_id x =? 0 then i else remove_vlan i (nv_id x) | None => i end,
         if vn_native_routed nd then [] else [ENativeRouted v])
  end.

(* vlan.py:1111-1137 check_mixed_trunks: None is the fatal error *)
Fixpoint mixed_trunks (all l : list vintf) (seen : list Z) : option (list verror) :=
  match l with
  | [] => Some []
  | i :: r =>
      match i_pidx i with
      | None => mixed_trunks all r seen
      | Some pi =>
          if negb (String.eqb (i_type i) "vlan_member") then mixed_trunks all r seen
          else
            match find (fun x => i_index x =? pi) all with
            | None => None
            | Some p =>
                match p_trunk_id (i_vlan p) with
                | None => mixed_trunks all r seen
                | Some _ =>
                    match mixed_trunks all r (pi :: seen) with
                    | None => None
                    | Some es => Some (if memZ pi seen then es else EMixedTrunk pi :: es)
                    end
                end
            end
      end
  end.
Definition check_mixed_trunks (l : list vintf) : option (list verror) :=
  if vn_mixed nd then Some [] else mixed_trunks l l [].

(* vlan.py:1144-1163 check_mixed_native_trunk *)
Definition truthy_at (k : string) (d : dict val) : bool := match dget k d with Some v => truthy v | None => false end.
Definition check_mixed_native (l : list vintf) : list verror :=
  if vn_switch nd then
    flat_map (fun i =>
      if truthy_at "virtual_interface" (i_attr i) then []
      else if negb (dmem "ipv4"%string (i_attr i)) && negb (dmem "ipv6"%string (i_attr i)) then []
      else match p_trunk_id (i_vlan i) with Some (_ :: _) => [EMixedNative (i_ifname i)] | _ => [] end) l
  else [].

(* vlan.py:1405-1415 the part of module_post_link_transform for one node *)
Record vresult := mk_vr {
  vr_ifs : list vintf; vr_vlans : dict nvlan; vr_bg : option Z; vr_nl : nlists; vr_ren : list rename; vr_errs : list verror }.
Definition vlan_interfaces (routed_link : option nat -> bool) (vlans : dict nvlan) (bg : option Z) (nl : nlists)
  (ifs : list vintf) : option vresult :=
  match create_svi ifs (mk_cs vlans bg [] [] nl []) with
  | None => None
  | Some c =>
      match map_trunk_vlans (c_vlans c) (c_done c ++ map snd (c_svi c)) with
      | None => None
      | Some l1 =>
          match rename_vlan_subinterfaces (c_vlans c) routed_link l1 (c_nl c) with
          | None => None
          | Some r =>
              let l2 := map (native_cleanup (c_vlans c)) (r_ifs r) in
              match check_mixed_trunks (map fst l2) with
              | None => None
              | Some e =>
                  Some (mk_vr (map fst l2) (c_vlans c) (c_bg c) (r_nl r) (r_ren r)
                              (c_errs c ++ r_errs r ++ flat_map snd l2 ++ e ++ check_mixed_native (map fst l2)))
              end
          end
      end
  end.
End Fmt.

(* ---- all nodes ---- *)

(* A node of the topology; [pn_on]: it uses the vlan module; [pn_loc]: neighbor lists of its VLANs that are not global;
   [pn_host]: its role is host *)
Record pnode := mk_pn {
  pn_on : bool; pn_host : bool; pn_node : vnode; pn_vlans : dict nvlan; pn_loc : dict (list vngb); pn_ifs : list vintf }.

Section All.
Variable svi_fmt : vnode -> Z -> option Z -> string -> string.
Variable svi_desc : string -> Z -> string.
Variable sub_fmt : vnode -> vintf -> vintf -> string.
Variable t : vtop.
Variable routed_link : option nat -> bool.

Definition set_ngb (i : vintf) (l : list vngb) : vintf :=
  mk_vi (i_index i) (i_type i) (i_ifname i) (i_link i) (i_parent i) (i_loop i) (i_fwd i) (i_vlan i) (i_vname i) l (i_saved i)
    (i_sub i) (i_pidx i) (i_pname i) (i_native i) (i_attr i).

(* vlan.py:977-985 rename_neighbor_interface *)
Definition rename_ngb (r : rename) (n : pnode) : pnode :=
  if String.eqb (vn_name (pn_node n)) (rn_node r)
  then mk_pn (pn_on n) (pn_host n) (pn_node n) (pn_vlans n) (pn_loc n)
         (map (fun i => set_ngb i (map (fun g =>
            if String.eqb (g_node g) (rn_peer r) && String.eqb (g_ifname g) (rn_old r)
            then mk_vg (g_node g) (rn_new r) (g_v4 g) (g_v6 g) else g) (i_ngb i))) (pn_ifs n))
  else n.
Definition rename_all (rs : list rename) (n : pnode) : pnode := fold_left (fun n r => rename_ngb r n) rs n.

Record tstate := mk_ts { ts_nodes : list pnode; ts_glob : dict (list vngb); ts_errs : list verror }.

Fixpoint replace_node (k : nat) (x : pnode) (l : list pnode) : list pnode :=
  match l, k with
  | [], _ => []
  | _ :: r, O => x :: r
  | y :: r, S k' => y :: replace_node k' x r
  end.

(* vlan.py:1406-1415 one node. The interfaces on adjacent nodes are renamed when the node is done. *)
Definition vlan_step (st : tstate) (k : nat) : option tstate :=
  match nth_error (ts_nodes st) k with
  | None => Some st
  | Some n =>
      if negb (pn_on n) then Some st
      else
        match vlan_interfaces (svi_fmt (pn_node n)) svi_desc (sub_fmt (pn_node n)) t (pn_node n) routed_link
                (pn_vlans n) None (mk_nl (ts_glob st) (pn_loc n)) (pn_ifs n) with
        | None => None
        | Some r =>
            Some (mk_ts (map (rename_all (vr_ren r))
                           (replace_node k (mk_pn true (pn_host n) (pn_node n) (vr_vlans r) (nl_loc (vr_nl r)) (vr_ifs r)) (ts_nodes st)))
                        (nl_glob (vr_nl r)) (ts_errs st ++ vr_errs r))
        end
  end.
Fixpoint vlan_loop (st : tstate) (ks : list nat) : option tstate :=
  match ks with
  | [] => Some st
  | k :: r => match vlan_step st k with Some st' => vlan_loop st' r | None => None end
  end.

Fixpoint neighbor_with (v : string) (nodes : list pnode) (l : list vngb) : option pnode :=
  match l with
  | [] => None
  | g :: r => match find (fun m => named (vn_name (pn_node m)) g && dmem v (pn_vlans m)) nodes with
              | Some m => Some m
              | None => neighbor_with v nodes r
              end
  end.
(* vlan.py:731-738 get_vlan_data: the neighbor list of a global VLAN, of a node VLAN, or of the VLAN of the first neighbor
   that has it *)
Definition vlan_list (glob : dict (list vngb)) (nodes : list pnode) (n : pnode) (i : vintf) (v : string) : option (list vngb) :=
  if dmem v (vt_vlans t) then Some (list_of v glob)
  else if dmem v (pn_vlans n) then Some (list_of v (pn_loc n))
  else match neighbor_with v nodes (i_ngb i) with
       | Some m => Some (list_of v (pn_loc m))
       | None => None
       end.

Definition is_host (nodes : list pnode) (g : vngb) : bool :=
  existsb (fun m => String.eqb (vn_name (pn_node m)) (g_node g) && pn_host m) nodes.

(* vlan.py:918-939 set_svi_neighbor_list, one interface; the new description is left out *)
Definition svi_neighbors (glob : dict (list vngb)) (nodes : list pnode) (n : pnode) (i : vintf) : vintf :=
  match i_vname i with
  | None => i
  | Some v =>
      if p_routed (i_vlan i) then i
      else match vlan_list glob nodes n i v with
           | None => i
           | Some l =>
               let i1 := set_ngb i (filter (fun g => negb (named (vn_name (pn_node n)) g)) l) in
               if negb (dmem "role"%string (i_attr i))
                  && Nat.eqb (length l) (S (length (filter (is_host nodes) l)))
               then mk_vi (i_index i1) (i_type i1) (i_ifname i1) (i_link i1) (i_parent i1) (i_loop i1) (i_fwd i1) (i_vlan i1) (i_vname i1)
                      (i_ngb i1) (i_saved i1) (i_sub i1) (i_pidx i1) (i_pname i1) (i_native i1)
                      (dset "role"%string (VStr "stub") (i_attr i1))
               else i1
           end
  end.

(* vlan.py:1405-1422 module_post_link_transform without the duplicate address check and the cleanup *)
Definition post_link_transform (nodes : list pnode) : option (list pnode * list verror) :=
  match vlan_loop (mk_ts nodes [] []) (seq 0 (length nodes)) with
  | None => None
  | Some st =>
      Some (map (fun n => mk_pn (pn_on n) (pn_host n) (pn_node n) (pn_vlans n) (pn_loc n)
                            (map (svi_neighbors (ts_glob st) (ts_nodes st) n) (pn_ifs n))) (ts_nodes st), ts_errs st)
  end.
End All.
