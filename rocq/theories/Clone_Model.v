(* Model of the node cloning plugin: netsim/extra/node.clone/plugin.py.
   Definitions only. Links are values of Box_Model, adjusted with Lnk_Model.adjust_link_object.
   Simplified: the name of a clone is a function of the name of the node and of the number of the
   clone (the format string could use other node attributes); the members of a LAG are plain links;
   interface indices, node ids and clone parameters that matter are integers; the links of VLANs and
   VRFs are all that is kept of VLANs and VRFs; topology.links is a list; list.remove compares values
   structurally (python ignores the order of dictionary keys). adjust_link_object changes the links
   that are not cloned as well, in a way that is repeated when the links are processed later (C117):
   these changes are left out. Not modelled: error texts, the errors in the members of LAGs, the removal of
   the clone attribute from a node that cannot be cloned (an error is reported in that case). *)
From Coq Require Import String Ascii ZArith Bool List.
From Verif Require Import Base Box_Model Text_Model Intf_Model Lnk_Model.
Import ListNotations.
Local Open Scope string_scope.
Local Open Scope list_scope.

(* python == on data trees *)
Fixpoint veqb (a b : val) {struct a} : bool :=
  match a, b with
  | VNull, VNull => true
  | VBool x, VBool y => Bool.eqb x y
  | VInt x, VInt y => Z.eqb x y
  | VStr x, VStr y => String.eqb x y
  | VList x, VList y =>
      (fix go (x y : list val) : bool :=
         match x, y with
         | [], [] => true
         | a :: r, b :: s => veqb a b && go r s
         | _, _ => false
         end) x y
  | VDict x, VDict y =>
      (fix go (x y : list (string * val)) : bool :=
         match x, y with
         | [], [] => true
         | (k, a) :: r, (j, b) :: s => String.eqb k j && veqb a b && go r s
         | _, _ => false
         end) x y
  | _, _ => false
  end.

(* list.remove(x): the first equal element *)
Fixpoint remove_first (x : val) (l : list val) : list val :=
  match l with
  | [] => []
  | y :: r => if veqb y x then r else y :: remove_first x r
  end.

(* the interfaces of an adjusted link *)
Definition as_dict (v : val) : dict val := match v with VDict d => d | _ => [] end.
Definition link_intfs (l : link) : list (dict val) :=
  match dget "interfaces" l with Some (VList x) => map as_dict x | _ => [] end.

Definition intf_node (i : dict val) : string := match dget "node" i with Some (VStr s) => s | _ => "" end.

(* the elements of a list with their positions: enumerate() *)
Definition enumerate {A} (l : list A) : list (nat * A) := combine (seq 0 (length l)) l.

Definition add_index (c : nat) (i : dict val) : dict val :=
  match dget "ifindex" i with
  | Some (VInt z) => dset "ifindex" (VInt (z + Z.of_nat c)) i
  | _ => i
  end.

(* node.clone/plugin.py:17-23 *)
Definition clone_intf (name : string) (c : nat) (clone : string) (i : dict val) : dict val :=
  if String.eqb (intf_node i) name then dset "node" (VStr clone) i else add_index c i.

Definition set_intfs (l : link) (ifs : list (dict val)) : link := dset "interfaces" (VList (map VDict ifs)) l.

(* node.clone/plugin.py:11-25 clone_link *)
Definition clone_link (name : string) (clones : list string) (l : link) : list link :=
  if memS name (map intf_node (link_intfs l)) then
    map (fun '(c, clone) => set_intfs l (map (clone_intf name c clone) (link_intfs l))) (enumerate clones)
  else [].

(* node.clone/plugin.py:62-85 process_links: [todo] is the copy of the list, [cur] the list; the
   list and the clones of every cloned link *)
Fixpoint process_loop (f : nat -> link -> list link) (prefix : string) (nodes : list string) (cnt : nat)
  (todo cur : list val) : list val * list (list link) * list lerr :=
  match todo with
  | [] => (cur, [], [])
  | l :: r =>
      match adjust_link_object l (prefix ++ "links[" ++ dec (S cnt) ++ "]")%string nodes with
      | (None, e) =>
          let '(cur', res, e') := process_loop f prefix nodes (S cnt) r cur in (cur', res, e ++ e')
      | (Some d, e) =>
          match f cnt d with
          | [] => let '(cur', res, e') := process_loop f prefix nodes (S cnt) r cur in (cur', res, e ++ e')
          | cl =>
              let '(cur', res, e') :=
                process_loop f prefix nodes (S cnt) r (remove_first l cur ++ map VDict cl) in
              (cur', cl :: res, e ++ e')
          end
      end
  end.

Definition process_members (prefix : string) (nodes : list string) (name : string) (clones : list string)
  (items : list val) : list val * list (list link) * list lerr :=
  process_loop (fun _ => clone_link name clones) prefix nodes 0 items items.

(* the members of a LAG: link_data.get('lag.members') *)
Definition lag_members (l : link) : list val :=
  match dget "lag" l with
  | Some (VDict g) => match dget "members" g with Some (VList m) => m | _ => [] end
  | _ => []
  end.

(* node.clone/plugin.py:45-46 the index of the LAG *)
Definition lag_index (c : nat) (g : dict val) : dict val :=
  match dget "ifindex" g with
  | Some (VInt z) => dset "ifindex" (VInt (z + Z.of_nat c)) g
  | _ => g
  end.

(* node.clone/plugin.py:49-52 a member of the c-th LAG *)
Definition lag_member (c : nat) (cl : list link) : val :=
  let m := nth c cl [] in VDict (set_intfs m (map (add_index c) (link_intfs m))).

(* node.clone/plugin.py:30-54 clone_lag *)
Definition clone_lag (nodes : list string) (name : string) (clones : list string) (cnt : nat) (l : link)
  : list link * list lerr :=
  let '(_, cloned, errs) := process_members ("lag[" ++ dec (S cnt) ++ "].m")%string nodes name clones (lag_members l) in
  match cloned with
  | [] => ([], errs)
  | _ =>
      (map (fun '(c, _) =>
              let g := match dget "lag" l with Some (VDict g) => g | _ => [] end in
              dset "lag" (VDict (dset "members" (VList (map (lag_member c) cloned)) (lag_index c g))) l)
           (enumerate clones), errs)
  end.

(* node.clone/plugin.py:76-79 *)
Definition clone_item (nodes : list string) (name : string) (clones : list string) (cnt : nat) (l : link)
  : list link :=
  match lag_members l with
  | [] => clone_link name clones l
  | _ => fst (clone_lag nodes name clones cnt l)
  end.

Definition process_links (prefix : string) (nodes : list string) (name : string) (clones : list string)
  (items : list val) : list val * list lerr :=
  let '(cur, _, errs) := process_loop (clone_item nodes name clones) prefix nodes 0 items items in (cur, errs).

(* ---- nodes ---- *)

Record topo := mk_topo {
  t_nodes : dict (dict val);
  t_links : option (list val);
  t_groups : dict (dict val);
  t_vlans : dict (list val);           (* links of VLANs *)
  t_vrfs : dict (list val)             (* links of VRFs *)
}.

Inductive cerr :=
| ENoCount (n : string)
| EParam (n attr : string)
| EInclude (n : string)
| ELink (e : lerr).

Section Clone.
Variable name_of : string -> Z -> string.      (* clone.node_name_pattern *)

(* node.clone/plugin.py:99-108 parameters: start, step, count *)
Definition int_of (v : val) : Z := match v with VInt z => z | _ => 0 end.
Definition positive (v : val) : bool := match v with VInt z => Z.ltb 0 z | _ => false end.

Definition clone_params (node : dict val) : dict val :=
  match merge (VDict [("start", VInt 1); ("step", VInt 1)])
              (match dget "clone" node with Some v => v | None => VDict [] end) with
  | VDict d => d
  | _ => []
  end.

(* range(start,start+count*step,step) *)
Definition clone_ids (start count step : Z) : list Z :=
  map (fun i => start + Z.of_nat i * step)%Z (seq 0 (Z.to_nat count)).

(* node.clone/plugin.py:118-123 *)
Definition clone_data (node : dict val) (name : string) (id : Z) : dict val :=
  let d := dset "interfaces" (VList []) (dset "name" (VStr (name_of name id)) node) in
  match dget "id" node with
  | Some (VInt z) => dset "id" (VInt (z + id - 1)) d
  | _ => d
  end.

(* node.clone/plugin.py:124-127 *)
Definition add_clone (node : dict val) (name : string) (nodes : dict (dict val)) (id : Z) : dict (dict val) :=
  let d := clone_data node name id in
  let n := name_of name id in
  match dget n nodes with
  | Some x => dset n (as_dict (merge (VDict d) (VDict x))) nodes
  | None => dset n d nodes
  end.

(* list.remove, list.extend on group members *)
Definition update_members (name : string) (clones : list string) (g : dict val) : dict val :=
  match dget "members" g with
  | Some (VList m) =>
      if existsb (veqb (VStr name)) m
      then dset "members" (VList (remove_first (VStr name) m ++ map VStr clones)) g
      else g
  | _ => g
  end.

Definition is_flag (s : string) : bool := match s with String c _ => Ascii.eqb c "_" | EmptyString => false end.

Definition process_dict (what : string) (nodes : list string) (name : string) (clones : list string)
  (d : dict (list val)) : dict (list val) * list lerr :=
  (map (fun '(k, l) => (k, fst (process_links (what ++ "." ++ k ++ ".")%string nodes name clones l))) d,
   flat_map (fun '(k, l) => snd (process_links (what ++ "." ++ k ++ ".")%string nodes name clones l)) d).

(* node.clone/plugin.py:98-146 clone_node; [node] comes from the copy of the list of nodes *)
Definition clone_node (name : string) (node0 : dict val) (t : topo) : topo * list cerr :=
  let p := clone_params node0 in
  let node := dpop "clone" node0 in
  match dget "count" p with
  | None => (t, [ENoCount name])
  | Some cnt =>
      match find (fun kv => negb (positive (snd kv))) p with
      | Some (k, _) => (t, [EParam name k])
      | None =>
          if dmem "include" node then (t, [EInclude name])
          else
            let ids := clone_ids (int_of (match dget "start" p with Some v => v | None => VNull end))
                                 (int_of cnt)
                                 (int_of (match dget "step" p with Some v => v | None => VNull end)) in
            let nodes := fold_left (add_clone node name) ids (t_nodes t) in
            let clones := map (name_of name) ids in
            let names := dkeys nodes in
            let lk := match t_links t with
                      | Some l => let (x, e) := process_links "" names name clones l in (Some x, e)
                      | None => (None, [])
                      end in
            let groups := map (fun '(g, d) => (g, if is_flag g then d else update_members name clones d)) (t_groups t) in
            let vl := process_dict "vlans" names name clones (t_vlans t) in
            let vr := process_dict "vrfs" names name clones (t_vrfs t) in
            (mk_topo (dpop name nodes) (fst lk) groups (fst vl) (fst vr),
             map ELink (snd lk ++ snd vl ++ snd vr))
      end
  end.

(* node.clone/plugin.py:151-154 topology_expand: over a copy of the list of nodes *)
Fixpoint clone_nodes (l : list (string * dict val)) (t : topo) : topo * list cerr :=
  match l with
  | [] => (t, [])
  | (n, d) :: r =>
      if dmem "clone" d then
        let (t1, e1) := clone_node n d t in
        let (t2, e2) := clone_nodes r t1 in (t2, e1 ++ e2)
      else clone_nodes r t
  end.

Definition topology_expand (t : topo) : topo * list cerr := clone_nodes (t_nodes t) t.
End Clone.

(* node.clone/defaults.yml: "{name[:13]}-{id:02d}" *)
Definition pad2 (n : nat) : string := if Nat.ltb n 10 then ("0" ++ dec n)%string else dec n.
Definition default_name (name : string) (id : Z) : string :=
  (substring 0 13 name ++ "-" ++ pad2 (Z.to_nat id))%string.
