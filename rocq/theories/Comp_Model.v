(* Model of netsim/augment/components.py (topology components and include requests) and of
   netsim/augment/nodes.py create_node_dict.
   Definitions only. Not modelled: error texts, an include request that is a list or a dictionary (a
   TypeError), components that are not dictionaries, node names that are not strings, a node list that
   is a string. The recursion of expand_include is bounded by fuel; running out of it stands for a
   deeper recursion. *)
From Coq Require Import String Ascii ZArith Bool List.
From Verif Require Import Base Box_Model Text_Model Types_Model Intf_Model Lnk_Model.
Import ListNotations.
Local Open Scope string_scope.
Local Open Scope list_scope.

Definition node := dict val.

(* the errors reported with log.error *)
Inductive cerr :=
| CLink (e : lerr)             (* adjust_link_list *)
| CNodeName                    (* nodes.py:48 no name attribute *)
| CNodeType (name : string)    (* nodes.py:59-62 node data is not a dictionary *)
| CCompName (name : string)    (* components.py:28 component name is not an identifier *)
| CCompType (name : string)    (* components.py:33 the component is not a dictionary *)
| CBadId (name : string)       (* components.py:92 the name of the included node is not an identifier *)
| CExists (name : string)      (* components.py:99 the node already exists *)
| CNotFound (name : string)    (* components.py:54-67 invalid include request *)
| CGroup (name : string).      (* components.py:129 the group already exists *)

(* ---- nodes.py:40-72 create_node_dict ---- *)

(* nodes.py:45-52: a list of node names and node data; None - an exception, or a node name that is not a
   string (not modelled) *)
Fixpoint list_nodes (l : list val) (acc : dict val) : option (dict val) * list cerr :=
  match l with
  | [] => (Some acc, [])
  | VStr s :: r => list_nodes r (dset s (VDict [("name", VStr s)]) acc)
  | VDict d :: r =>
      match dget "name" d with
      | None => let (o, e) := list_nodes r acc in (o, CNodeName :: e)
      | Some (VStr s) => list_nodes r (dset s (VDict d) acc)
      | Some _ => (None, [])
      end
  | _ :: _ => (None, [])
  end.

(* nodes.py:55-69 *)
Definition node_body (name : string) (v : val) : node * list cerr :=
  match v with
  | VNull => ([("name", VStr name)], [])
  | VDict d => (dset "name" (VStr name) d, [])
  | _ => ([("name", VStr name); ("extra", v)], [CNodeType name])
  end.

Definition set_interfaces (d : node) : node :=
  dset "interfaces" (match dget "interfaces" d with
                     | Some x => if truthy x then x else VList []
                     | None => VList []
                     end) d.

Fixpoint node_bodies (l : list (string * val)) : dict node * list cerr :=
  match l with
  | [] => ([], [])
  | (k, v) :: r =>
      let (d, e1) := node_body k v in
      let (ds, e2) := node_bodies r in
      ((k, set_interfaces d) :: ds, e1 ++ e2)
  end.

Definition create_node_dict (v : val) : option (dict node) * list cerr :=
  match v with
  | VDict d => let (ds, e) := node_bodies d in (Some ds, e)
  | VList l =>
      match list_nodes l [] with
      | (None, e) => (None, e)
      | (Some d, e1) => let (ds, e2) := node_bodies d in (Some ds, e1 ++ e2)
      end
  | VStr s => (* the characters of a string are node names *)
      match list_nodes (map (fun c => VStr (String c EmptyString)) (list_ascii_of_string s)) [] with
      | (None, e) => (None, e)
      | (Some d, e1) => let (ds, e2) := node_bodies d in (Some ds, e1 ++ e2)
      end
  | _ => if truthy v then (None, []) else (Some [], [])
  end.

(* ---- components ---- *)

Record comp := mk_comp {
  c_nodes : dict node;     (* the nodes, after create_node_dict; empty when there are none *)
  c_links : list link;     (* the links, after adjust_link_list *)
  c_attrs : dict val       (* all other attributes *)
}.

Definition valid_id (name : string) : bool :=
  match must_be_id 16 (VStr name) with Valid _ => true | _ => false end.

(* components.py:28-44: one component; a component without data is an empty dictionary, any other value that
   is not a dictionary is an error (the exceptions that can follow the error message are not modelled: the
   program terminates in both cases) *)
Definition validate_component (cname : string) (v : val) : option comp * list cerr :=
  let d := match v with VDict d => d | _ => [] end in
  let e0 := (if valid_id cname then [] else [CCompName cname]) ++
            match v with VDict _ | VNull => [] | _ => [CCompType cname] end in
  match (match dget "nodes" d with Some n => create_node_dict n | None => (Some [], []) end) with
  | (None, e1) => (None, e0 ++ e1)
  | (Some ns, e1) =>
      let (ls, e2) := match dget "links" d with
                      | Some l => adjust_link_list l ("components." ++ cname ++ ".links")%string (dkeys ns)
                      | None => ([], [])
                      end in
      (Some (mk_comp ns ls (dpop "links" (dpop "nodes" d))), e0 ++ e1 ++ map CLink e2)
  end.

(* components.py:26-44 validate_components *)
Fixpoint validate_components (l : list (string * val)) : option (dict comp) * list cerr :=
  match l with
  | [] => (Some [], [])
  | (k, v) :: r =>
      match validate_component k v with
      | (None, e) => (None, e)
      | (Some c, e1) =>
          match validate_components r with
          | (None, e2) => (None, e1 ++ e2)
          | (Some cs, e2) => (Some ((k, c) :: cs), e1 ++ e2)
          end
      end
  end.

(* ---- expansion ---- *)

Record topo := mk_topo {
  t_nodes : dict node;
  t_links : list link;
  t_groups : dict (dict val);
  t_errs : list cerr
}.

Definition add_err (e : cerr) (t : topo) : topo := mk_topo (t_nodes t) (t_links t) (t_groups t) (t_errs t ++ [e]).
Definition set_nodes (n : dict node) (t : topo) : topo := mk_topo n (t_links t) (t_groups t) (t_errs t).
Definition set_links (l : list link) (t : topo) : topo := mk_topo (t_nodes t) l (t_groups t) (t_errs t).
Definition set_groups (g : dict (dict val)) (t : topo) : topo := mk_topo (t_nodes t) (t_links t) g (t_errs t).

Inductive outcome :=
| Done (t : topo)
| Fatal (name : string)    (* components.py:111 too many nodes *)
| OutOfFuel.

(* nodes.py:23 *)
Definition MAX_NODE_ID : nat := 250.

(* f'{n_name}_{inc_name}' *)
Definition sub_name (n x : string) : string := (n ++ "_" ++ x)%string.

(* links.py:1105-1110 get_next_linkindex, on links with an integer linkindex *)
Definition next_index (start : Z) (l : list link) : Z :=
  match rev l with
  | [] => start
  | x :: _ => match dget "linkindex" x with Some (VInt i) => (i + 1)%Z | _ => start end
  end.

(* components.py:122-123 *)
Definition rename_interface (n : string) (v : val) : val :=
  match v with
  | VDict d => match dget "node" d with
               | Some (VStr s) => VDict (dset "node" (VStr (sub_name n s)) d)
               | _ => v
               end
  | _ => v
  end.

(* components.py:118-123: the copy of one link *)
Definition include_link (n : string) (idx : Z) (l : link) : link :=
  dset "interfaces" (match dget "interfaces" l with
                     | Some (VList ifs) => VList (map (rename_interface n) ifs)
                     | _ => VList []
                     end)
    (dset "linkindex" (VInt idx) (dset "_linkname" (VStr (sub_name n (link_name l))) l)).

(* components.py:116-124 include_links *)
Fixpoint include_links (start : Z) (n : string) (ls : list link) (t : topo) : topo :=
  match ls with
  | [] => t
  | l :: r => include_links start n r (set_links (t_links t ++ [include_link n (next_index start (t_links t)) l]) t)
  end.

(* components.py:136-140 *)
Definition member_name (n : string) (kv : string * node) : string :=
  if dmem "include" (snd kv) then ("inc_" ++ sub_name n (fst kv))%string else sub_name n (fst kv).

Fixpoint set_all (l : list (string * val)) (g : dict val) : dict val :=
  match l with
  | [] => g
  | (k, v) :: r => set_all r (dset k v g)
  end.

(* components.py:126-149 create_included_group *)
Definition create_included_group (n : string) (n_data : node) (c : comp) (t : topo) : topo :=
  let g_name := ("inc_" ++ n)%string in
  if dmem g_name (t_groups t) then add_err (CGroup g_name) t
  else
    let g0 := [("members", VList (map (fun kv => VStr (member_name n kv)) (c_nodes c)))] in
    let g1 := set_all (c_attrs c) g0 in
    let g2 := set_all (filter (fun kv => negb (memS (fst kv) ["include"; "interfaces"])) n_data) g1 in
    set_groups (dset g_name g2 (t_groups t)) t.

Section Expand.
  Variable start : Z.            (* defaults.link_index *)
  Variable comps : dict comp.    (* topology.components *)

  (* components.py:53-69 validate_include *)
  Definition validate_include (v : val) : option comp :=
    match v with VStr c => dget c comps | _ => None end.

  (* components.py:89-114 include_nodes; [rec] is expand_include *)
  Fixpoint include_nodes (rec : string -> node -> comp -> topo -> outcome) (n : string) (ns : list (string * node)) (t : topo)
    : outcome :=
    match ns with
    | [] => Done t
    | (inc, d) :: r =>
        let name := sub_name n inc in
        let t := if valid_id name then t else add_err (CBadId name) t in
        if dmem name (t_nodes t) then include_nodes rec n r (add_err (CExists name) t)
        else match dget "include" d with
             | Some v =>
                 match validate_include v with
                 | None => include_nodes rec n r (add_err (CNotFound name) t)
                 | Some c => match rec name d c t with
                             | Done t' => include_nodes rec n r t'
                             | o => o
                             end
                 end
             | None =>
                 let t' := set_nodes (dset name d (t_nodes t)) t in
                 if Nat.ltb MAX_NODE_ID (length (t_nodes t')) then Fatal name
                 else include_nodes rec n r t'
             end
    end.

  (* components.py:151-159 expand_include *)
  Fixpoint expand_include (fuel : nat) (n : string) (n_data : node) (c : comp) (t : topo) : outcome :=
    match fuel with
    | O => OutOfFuel
    | S f =>
        match include_nodes (expand_include f) n (c_nodes c) t with
        | Done t' => Done (create_included_group n n_data c (include_links start n (c_links c) t'))
        | o => o
        end
    end.

  (* components.py:175-183: the names are read before the loop *)
  Fixpoint expand_loop (fuel : nat) (names : list string) (t : topo) : outcome :=
    match names with
    | [] => Done t
    | n :: r =>
        match dget n (t_nodes t) with
        | None => expand_loop fuel r t
        | Some d =>
            match dget "include" d with
            | None => expand_loop fuel r t
            | Some v =>
                let t := set_nodes (dpop n (t_nodes t)) t in
                match validate_include v with
                | None => expand_loop fuel r (add_err (CNotFound n) t)
                | Some c => match expand_include fuel n d c t with
                            | Done t' => expand_loop fuel r t'
                            | o => o
                            end
                end
            end
        end
    end.

  (* components.py:175-183 *)
  Definition expand_topology (fuel : nat) (t : topo) : outcome := expand_loop fuel (dkeys (t_nodes t)) t.
End Expand.

(* components.py:168-186 expand_components: the components are validated first, and an error or an
   exception terminates the program (None) *)
Definition expand_components (fuel : nat) (start : Z) (components : dict val) (t : topo) : option outcome :=
  match validate_components components with
  | (Some cs, []) => Some (expand_topology start cs fuel t)
  | _ => None
  end.
