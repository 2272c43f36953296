(* Model of VLAN identifiers, VNIs, VLAN forwarding modes (netsim/modules/vlan.py) and of VXLAN
   flood lists (netsim/modules/vxlan.py). Definitions only.
   Simplifications: a missing vlans dictionary is an empty one; VLAN data is reduced to the id,
   vni and mode attributes and the merge flag; prefix allocation (modelled in Pool_Model) and the
   link attributes of VLANs are left out; group data (export_group_node_data) is already merged. *)
From Coq Require Import String ZArith Bool List.
From Verif Require Import Base IdAlloc_Model.
Import ListNotations.
Open Scope Z_scope.

(* vlan_data.vni: the data type is checked to be an integer (vlan.yml:80,88), but assign_vni
   also handles booleans *)
Inductive vni := VniB (b : bool) | VniN (n : Z).

Definition vni_eqb (a b : vni) : bool :=
  match a, b with
  | VniB x, VniB y => Bool.eqb x y
  | VniN x, VniN y => x =? y
  | _, _ => false
  end.

Record vlan := mk_vlan {
  vl_id : option Z;
  vl_vni : option vni;
  vl_mode : option string;
  vl_merged : bool                     (* _global_merge *)
}.

Record vnode := mk_vnode {
  vn_vlans : dict vlan;                (* node.vlans *)
  vn_mode : option string;             (* node.vlan.mode *)
  vn_vxlan : option (list string)      (* node.vxlan.vlans *)
}.

Record vtopo := mk_vtopo {
  tp_vlans : dict vlan;                (* topology.vlans *)
  tp_mode : option string;             (* topology.vlan.mode *)
  tp_defmode : option string;          (* topology.defaults.vlan.mode *)
  tp_start : Z;                        (* topology.defaults.vlan.start_vlan_id *)
  tp_start_vni : Z;                    (* topology.defaults.vxlan.start_vni *)
  tp_vxlan : option (list string);     (* topology.vxlan.vlans *)
  tp_nodes : dict vnode
}.

(* Python "a or b" on optional strings: the empty string is false *)
Definition or_str (a b : option string) : option string :=
  match a with
  | Some EmptyString => b
  | None => b
  | Some s => Some s
  end.

(* _dataplane.py:39-54 build_id_set for the id attribute *)
Definition id_set (d : dict vlan) : list Z :=
  flat_map (fun kv : string * vlan => match vl_id (snd kv) with Some i => [i] | None => [] end) d.

(* _dataplane.py:39-54 build_id_set for the vni attribute: booleans are skipped *)
Definition vni_set (d : dict vlan) : list Z :=
  flat_map (fun kv : string * vlan => match vl_vni (snd kv) with Some (VniN n) => [n] | _ => [] end) d.

(* the loops at vlan.py:30-31 and vxlan.py:21-22 *)
Fixpoint extend_nodes (f : dict vlan -> list Z) (ns : dict vnode) (v : idvar) : idvar :=
  match ns with
  | [] => v
  | (_, n) :: r => extend_nodes f r (extend_id_set (f (vn_vlans n)) v)
  end.

(* vlan.py:25-31 populate_vlan_id_set *)
Definition populate_vlan_id_set (t : vtopo) : idvar :=
  extend_nodes id_set (tp_nodes t)
    (set_id_counter (tp_start t) 4094 (extend_id_set (id_set (tp_vlans t)) (create_id_set empty_idvar))).

(* vxlan.py:16-24 register_static_vni *)
Definition register_static_vni (t : vtopo) : idvar :=
  extend_nodes vni_set (tp_nodes t)
    (set_id_counter (tp_start_vni t) 16777215 (extend_id_set (vni_set (tp_vlans t)) (create_id_set empty_idvar))).

(* vlan.py:53-71 validate_global_node_match: the attributes (of id and vni) reported *)
Definition same_opt {A} (eq : A -> A -> bool) (n g : option A) : bool :=
  match n, g with
  | None, _ => true
  | Some x, Some y => eq x y
  | Some _, None => false
  end.

Definition validate_global_node_match (g n : vlan) : list string :=
  (if same_opt Z.eqb (vl_id n) (vl_id g) then [] else ["id"%string]) ++
  (if same_opt vni_eqb (vl_vni n) (vl_vni g) then [] else ["vni"%string]).

(* vlan.py:83-140 validate_vlan_attributes (mode and id part) for one VLAN and for a dictionary *)
Definition default_mode (is_topo : bool) (default : option string) (x : vlan) : vlan :=
  match vl_mode x with
  | Some _ => x
  | None =>
      match default with
      | Some EmptyString => x
      | None => x
      | Some m => if is_topo then x else mk_vlan (vl_id x) (vl_vni x) (Some m) (vl_merged x)
      end
  end.

Fixpoint validate_vlan_attributes (is_topo : bool) (default : option string) (d : dict vlan) (v : idvar)
  : result id_error (dict vlan * idvar) :=
  match d with
  | [] => Ok ([], v)
  | (k, x) :: r =>
      let x1 := default_mode is_topo default x in
      match (match vl_id x1 with
             | Some _ => Ok (x1, v)
             | None =>
                 match get_next_id v with
                 | Ok (i, v') => Ok (mk_vlan (Some i) (vl_vni x1) (vl_mode x1) (vl_merged x1), v')
                 | Err e => Err e
                 end
             end) with
      | Err e => Err e
      | Ok (x2, v1) =>
          match validate_vlan_attributes is_topo default r v1 with
          | Err e => Err e
          | Ok (r', v2) => Ok ((k, x2) :: r', v2)
          end
      end
  end.

(* vlan.py:89 default_fwd_mode, with get_global_parameter (data/__init__.py:82-86) *)
Definition default_fwd_mode (obj : option string) (t : vtopo) : option string :=
  or_str obj (or_str (tp_mode t) (tp_defmode t)).

(* vlan.py:470-475 set_node_vlan_mode; [g] is the mode of the global VLAN *)
Definition set_node_vlan_mode (n : vlan) (node : option string) (g : option string) (topo : option string) : vlan :=
  mk_vlan (vl_id n) (vl_vni n)
    (or_str (vl_mode n) (or_str node (or_str g (or_str topo (Some "irb"%string))))) (vl_merged n).

(* Box addition topology.vlans[v] + node.vlans[v] on the modelled attributes *)
Definition over {A} (n g : option A) : option A := match n with Some x => Some x | None => g end.

Definition merge_vlan (g n : vlan) : vlan :=
  mk_vlan (over (vl_id n) (vl_id g)) (over (vl_vni n) (vl_vni g)) (over (vl_mode n) (vl_mode g))
          (vl_merged n || vl_merged g).

(* an error report: node, VLAN, attribute *)
Definition verr := (string * string * string)%type.

(* vlan.py:1275-1292 node_pre_transform, the loop *)
Definition node_pre_vlan (t : vtopo) (n : vnode) (kx : string * vlan) : string * vlan :=
  let (k, x) := kx in
  match dget k (tp_vlans t) with
  | Some g => (k, merge_vlan g (set_node_vlan_mode x (vn_mode n) (vl_mode g) (tp_mode t)))
  | None => (k, set_node_vlan_mode x (vn_mode n) (vl_mode x) (tp_mode t))
  end.

Definition node_pre_errors (t : vtopo) (name : string) (n : vnode) : list verr :=
  flat_map (fun kx : string * vlan =>
              match dget (fst kx) (tp_vlans t) with
              | Some g => map (fun a => (name, fst kx, a)) (validate_global_node_match g (snd kx))
              | None => []
              end) (vn_vlans n).

(* vlan.py:1275-1294 node_pre_transform for all nodes in order *)
Fixpoint nodes_pre_transform (t : vtopo) (ns : dict vnode) (v : idvar)
  : result id_error (list verr * dict vnode * idvar) :=
  match ns with
  | [] => Ok ([], [], v)
  | (name, n) :: r =>
      match validate_vlan_attributes false (default_fwd_mode (vn_mode n) t)
              (map (node_pre_vlan t n) (vn_vlans n)) v with
      | Err e => Err e
      | Ok (d, v1) =>
          match nodes_pre_transform t r v1 with
          | Err e => Err e
          | Ok (errs, ns', v2) =>
              Ok (node_pre_errors t name n ++ errs,
                  (name, mk_vnode d (vn_mode n) (vn_vxlan n)) :: ns', v2)
          end
      end
  end.

Definition with_vlans (t : vtopo) (d : dict vlan) (ns : dict vnode) : vtopo :=
  mk_vtopo d (tp_mode t) (tp_defmode t) (tp_start t) (tp_start_vni t) (tp_vxlan t) ns.

(* vlan.py:1254-1266 module_pre_transform, followed by node_pre_transform of every node *)
Definition vlan_pre_transform (t : vtopo) : result id_error (list verr * vtopo) :=
  match validate_vlan_attributes true (default_fwd_mode (tp_mode t) t) (tp_vlans t) (populate_vlan_id_set t) with
  | Err e => Err e
  | Ok (gd, v1) =>
      let t1 := with_vlans t gd (tp_nodes t) in
      match nodes_pre_transform t1 (tp_nodes t1) v1 with
      | Err e => Err e
      | Ok (errs, ns', _) => Ok (errs, with_vlans t gd ns')
      end
  end.

(* vlan.py:486-508 populate_node_vlan (mode and merge part); a VLAN missing in the node is an
   empty Box *)
Definition no_vlan : vlan := mk_vlan None None None false.

Definition populate_node_vlan (t : vtopo) (n : vnode) (k : string) : vlan :=
  let x := match dget k (vn_vlans n) with Some x => x | None => no_vlan end in
  if vl_merged x then x
  else
    let g := match dget k (tp_vlans t) with Some g => g | None => no_vlan end in
    let x1 := set_node_vlan_mode x (vn_mode n) (vl_mode g) (tp_mode t) in
    merge_vlan g (mk_vlan (vl_id x1) (vl_vni x1) (vl_mode x1) true).

(* vlan.py:1170-1175 populate_node_vlan_data, for all nodes (1405-1408) *)
Definition populate_node_vlan_data (t : vtopo) (n : vnode) : vnode :=
  mk_vnode (fold_left (fun d k => dset k (populate_node_vlan t (mk_vnode d (vn_mode n) (vn_vxlan n)) k) d)
              (dkeys (vn_vlans n)) (vn_vlans n))
           (vn_mode n) (vn_vxlan n).

Definition populate_all (t : vtopo) : vtopo :=
  with_vlans t (tp_vlans t) (map (fun kn : string * vnode => (fst kn, populate_node_vlan_data t (snd kn))) (tp_nodes t)).

(* vlan.py:513-523 compute_interface_vlan_mode; [saved] is intf._vlan_mode, [imode] intf.vlan.mode *)
Definition compute_interface_vlan_mode (vname : option string) (saved imode : option string) (n : vnode) (t : vtopo) : string :=
  match or_str vname None with
  | None => "irb"%string
  | Some v =>
      match or_str saved (or_str imode
              (or_str (match dget v (vn_vlans n) with Some x => vl_mode x | None => None end)
                (or_str (vn_mode n)
                  (or_str (match dget v (tp_vlans t) with Some g => vl_mode g | None => None end)
                    (tp_mode t))))) with
      | Some EmptyString => "irb"%string
      | None => "irb"%string
      | Some m => m
      end
  end.

(* ---- VNIs ---- *)

Inductive vx_error := VxAlloc (e : id_error) | VxNoId.

(* _dataplane.py:139-159 validate_object_reference_list: the list of VXLAN VLANs of an object.
   The default list: local names, then the names of the topology list not already there.
   For the topology itself [topo] is its own (empty) list. *)
Definition vxlan_list (own : option (list string)) (d : dict vlan) (topo : option (list string)) : list string :=
  match own with
  | Some (x :: l) => x :: l
  | _ =>
      match d with
      | [] => []
      | _ => fold_left (fun acc k => if memS k acc then acc else acc ++ [k])
               (match topo with Some l => l | None => [] end) (dkeys d)
      end
  end.

Definition set_vni (x : vlan) (n : Z) : vlan := mk_vlan (vl_id x) (Some (VniN n)) (vl_mode x) (vl_merged x).

(* vxlan.py:77-90 the assignment for one VLAN *)
Definition auto_vni (start : Z) (x : vlan) (v : idvar) : result vx_error (vlan * idvar) :=
  match vl_id x with
  | None => Err VxNoId                             (* Box + int: TypeError *)
  | Some i =>
      if is_id_used v (start + i) then
        match get_next_id v with
        | Ok (n, v') => Ok (set_vni x n, v')
        | Err e => Err (VxAlloc e)
        end
      else Ok (set_vni x (start + i), extend_id_set [start + i] v)
  end.

(* vxlan.py:51-90 assign_vni. [globals] is None for the topology, and the topology VLANs for a
   node. Reported errors: names of VLANs. *)
Fixpoint assign_vni (start : Z) (globals : option (dict vlan)) (names : list string) (d : dict vlan) (v : idvar)
  : result vx_error (list string * dict vlan * idvar) :=
  match names with
  | [] => Ok ([], d, v)
  | k :: r =>
      match dget k d with
      | None => assign_vni start globals r d v
      | Some x =>
          match (match globals with Some gd => dget k gd | None => None end) with
          | Some g =>
              let bad := negb (same_opt vni_eqb (vl_vni x) (vl_vni g)) in
              match assign_vni start globals r d v with
              | Ok (errs, d', v') => Ok (if bad then k :: errs else errs, d', v')
              | Err e => Err e
              end
          | None =>
              match vl_vni x with
              | Some (VniB false) => assign_vni start globals r d v
              | Some (VniN n) =>
                  match assign_vni start globals r d v with
                  | Ok (errs, d', v') =>
                      Ok (if (n <? 2) || (n >? 16777215) then k :: errs else errs, d', v')
                  | Err e => Err e
                  end
              | _ =>
                  match auto_vni start x v with
                  | Err e => Err e
                  | Ok (x', v1) => assign_vni start globals r (dset k x' d) v1
                  end
              end
          end
      end
  end.

(* vxlan.py:180-185 module_post_node_transform *)
Fixpoint nodes_vni (t : vtopo) (ns : dict vnode) (v : idvar) : result vx_error (list verr * dict vnode * idvar) :=
  match ns with
  | [] => Ok ([], [], v)
  | (name, n) :: r =>
      match assign_vni (tp_start_vni t) (Some (tp_vlans t))
              (vxlan_list (vn_vxlan n) (vn_vlans n) (tp_vxlan t)) (vn_vlans n) v with
      | Err e => Err e
      | Ok (errs, d, v1) =>
          match nodes_vni t r v1 with
          | Err e => Err e
          | Ok (errs', ns', v2) =>
              Ok (map (fun k => (name, k, "vni"%string)) errs ++ errs',
                  (name, mk_vnode d (vn_mode n) (vn_vxlan n)) :: ns', v2)
          end
      end
  end.

Definition vxlan_post_node_transform (v : idvar) (t : vtopo) : result vx_error (list verr * vtopo) :=
  let l := vxlan_list (tp_vxlan t) (tp_vlans t) None in
  match assign_vni (tp_start_vni t) None l (tp_vlans t) v with
  | Err e => Err e
  | Ok (errs, gd, v1) =>
      let t1 := mk_vtopo gd (tp_mode t) (tp_defmode t) (tp_start t) (tp_start_vni t)
                  (match l with [] => tp_vxlan t | _ => Some l end) (tp_nodes t) in
      match nodes_vni t1 (tp_nodes t1) v1 with
      | Err e => Err e
      | Ok (errs', ns', _) =>
          Ok (map (fun k => (EmptyString, k, "vni"%string)) errs ++ errs', with_vlans t1 gd ns')
      end
  end.

(* The order of the hooks (augment/topology transformation): module_pre_transform of vlan and
   vxlan, node_pre_transform, module_post_node_transform, module_post_link_transform. *)
Definition vlan_transform (t : vtopo) : result vx_error (list verr * vtopo) :=
  match vlan_pre_transform t with
  | Err e => Err (VxAlloc e)
  | Ok (errs, t1) =>
      match vxlan_post_node_transform (register_static_vni t) t1 with
      | Err e => Err e
      | Ok (errs', t2) => Ok (errs ++ errs', populate_all t2)
      end
  end.

(* ---- VXLAN flood lists: vxlan.py:137-163, 190-245 ---- *)

Record fnode := mk_fnode {
  fn_module : bool;                    (* 'vxlan' in node.module *)
  fn_connected : bool;                 (* node.interfaces is not empty *)
  fn_vlans : dict (option vni);        (* node.vlans.*.vni *)
  fn_l3vni : bool;                     (* a VRF with a transit VNI *)
  fn_vtep : option string;             (* the VTEP address found by node_set_vtep, None: error *)
  fn_domain : string;
  fn_static : bool                     (* vxlan.flooding == 'static' *)
}.

Definition vni_enabled (x : option vni) : bool :=
  match x with Some (VniB b) => b | Some (VniN n) => negb (n =? 0) | None => false end.

(* vxlan.py:196-229 nodes that get a VTEP and join the list of their flooding domain *)
Definition joins (n : fnode) : bool :=
  fn_module n && fn_connected n
  && (existsb (fun kv => vni_enabled (snd kv)) (fn_vlans n) || fn_l3vni n)
  && match fn_vtep n with Some _ => true | None => false end.

(* vxlan.py:226-229 vxlan_domain_list *)
Fixpoint domain_lists (ns : dict fnode) (acc : dict (list string)) : dict (list string) :=
  match ns with
  | [] => acc
  | (name, n) :: r =>
      domain_lists r
        (if joins n then
           dset (fn_domain n) ((match dget (fn_domain n) acc with Some l => l | None => [] end) ++ [name]) acc
         else acc)
  end.

(* node.vxlan.vtep as seen by get('vxlan.vtep'): set only on nodes that joined *)
Definition vtep_of (topo : dict fnode) (name : string) : option string :=
  match dget name topo with
  | Some n => if joins n then fn_vtep n else None
  | None => None
  end.

Definition opt_vni_eqb (a b : option vni) : bool :=
  match a, b with
  | Some x, Some y => vni_eqb x y
  | None, None => true
  | _, _ => false
  end.

(* vxlan.py:137-157 the loop of build_vtep_list *)
Fixpoint vtep_loop (topo : dict fnode) (node : string) (local : option string) (x : option vni)
  (nodes : list string) (acc : list string) : list string :=
  match nodes with
  | [] => acc
  | n :: r =>
      if String.eqb n node then vtep_loop topo node local x r acc
      else
        match dget n topo with
        | None => vtep_loop topo node local x r acc
        | Some nd =>
            match vtep_of topo n with
            | None => vtep_loop topo node local x r acc
            | Some rv =>
                if (match local with Some lv => String.eqb rv lv | None => false end) || memS rv acc
                then vtep_loop topo node local x r acc
                else if existsb (fun kv => opt_vni_eqb (snd kv) x) (fn_vlans nd)
                     then vtep_loop topo node local x r (acc ++ [rv])
                     else vtep_loop topo node local x r acc
            end
        end
  end.

Definition build_vtep_list (topo : dict fnode) (node : string) (x : option vni) (nodes : list string) : list string :=
  vtep_loop topo node (vtep_of topo node) x nodes [].

(* sorted(list(set)): insertion into a sorted list without duplicates *)
Fixpoint insert_sorted (x : string) (l : list string) : list string :=
  match l with
  | [] => [x]
  | y :: r =>
      match String.compare x y with
      | Eq => l
      | Lt => x :: l
      | Gt => y :: insert_sorted x r
      end
  end.

(* vxlan.py:231-245 flood lists of one node: per-VLAN vtep_list (VLANs without one left out) and
   the node-level list *)
Definition node_flood (topo : dict fnode) (name : string) (nodes : list string) (n : fnode)
  : dict (list string) * list string :=
  let ls := flat_map (fun kv : string * option vni =>
                        match snd kv with
                        | None => []
                        | Some x => [(fst kv, build_vtep_list topo name (Some x) nodes)]
                        end) (fn_vlans n) in
  (filter (fun kl => match snd kl with [] => false | _ => true end) ls,
   fold_left (fun acc x => insert_sorted x acc) (flat_map snd ls) []).

(* vxlan.py:190-245 module_post_transform: flood lists by node name *)
Definition flood_lists (topo : dict fnode) : dict (dict (list string) * list string) :=
  flat_map (fun dn : string * list string =>
              flat_map (fun name =>
                          match dget name topo with
                          | Some n => if fn_static n then [(name, node_flood topo name (snd dn) n)] else []
                          | None => []
                          end) (snd dn)) (domain_lists topo []).
