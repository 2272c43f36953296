(* Model of the first phase of link processing in netsim/augment/links.py: link and interface
   shortcuts, link lists, link names, link groups and link indices.
   Definitions only. Link and interface data are values of Box_Model. Not modelled: error texts,
   debugging printouts, non-ASCII whitespace in link strings, '[' and '{' in the names of link
   dictionaries, interface 'node' values that are lists or dictionaries (a TypeError). *)
From Coq Require Import String Ascii ZArith Bool List.
From Verif Require Import Base Box_Model Text_Model Types_Model Intf_Model.
Import ListNotations.
Local Open Scope string_scope.
Local Open Scope list_scope.

(* the errors reported with log.error *)
Inductive lerr :=
| EUnknownNode (path node : string)   (* links.py:28-31, 47-50, 107-110: unknown node *)
| ENotADict (path : string)           (* links.py:35-38 interface data is not a dictionary *)
| ENoNode (path : string)             (* links.py:40-44 no node attribute *)
| EIntfList (path : string)           (* must_be_list on interfaces *)
| ENodeData (path node : string)      (* must_be_dict on node data within a link *)
| ELinkType (path : string)           (* links.py:115-118 invalid link type *)
| EListType (path : string)           (* links.py:151-154 not a list or a dictionary *)
| EMembers (path : string)            (* links.py:1176-1179 members without a group *)
| EGroupId (path : string)            (* must_be_id on the group *)
| EMembersType (path : string)        (* must_be_list on members *)
| ENoMembers (path : string).         (* links.py:1194-1197 group link without members *)

Definition link := dict val.

(* links.py:21-54 adjust_interface_list: one pass over the list *)
Definition adjust_interface (linkname : string) (nodes : list string) (n : val) : dict val + lerr :=
  match n with
  | VStr s => if memS s nodes then inl [("node", VStr s)] else inr (EUnknownNode linkname s)
  | VDict d =>
      match dget "node" d with
      | None => inr (ENoNode linkname)
      | Some (VStr s) => if memS s nodes then inl d else inr (EUnknownNode linkname s)
      | Some _ => inr (EUnknownNode linkname "")
      end
  | _ => inr (ENotADict linkname)
  end.

Fixpoint adjust_interface_list (linkname : string) (nodes : list string) (l : list val)
  : list (dict val) * list lerr :=
  match l with
  | [] => ([], [])
  | n :: r =>
      let (ifs, errs) := adjust_interface_list linkname nodes r in
      match adjust_interface linkname nodes n with
      | inl d => (d :: ifs, errs)
      | inr e => (ifs, e :: errs)
      end
  end.

(* must_be_list(l,'interfaces',...) (types.py:437-453): the list that is iterated afterwards; a
   dictionary is reported and its keys are iterated *)
Definition interfaces_list (linkname : string) (v : val) : list val * list lerr :=
  match v with
  | VList l => (l, [])
  | VNull => ([], [])
  | VDict d => (map (fun kv => VStr (fst kv)) d, [EIntfList linkname])
  | _ => ([v], [])
  end.

(* links.py:82-91: split a dictionary into link attributes and node data *)
Fixpoint split_link_dict (linkname : string) (nodes : list string) (d : dict val)
    (attrs : link) (ifs : list (dict val)) (errs : list lerr) : link * list (dict val) * list lerr :=
  match d with
  | [] => (attrs, ifs, errs)
  | (k, v) :: r =>
      if memS k nodes then
        match v with
        | VNull => split_link_dict linkname nodes r attrs (ifs ++ [[("node", VStr k)]]) errs
        | VDict nd => split_link_dict linkname nodes r attrs (ifs ++ [dset "node" (VStr k) nd]) errs
        | _ => split_link_dict linkname nodes r attrs ifs (errs ++ [ENodeData linkname k])
        end
      else split_link_dict linkname nodes r (dset k v attrs) ifs errs
  end.

(* python str.strip() *)
Definition strip (s : string) : string := rstrip is_space (lstrip is_space s).

(* links.py:101-105: a node name in a link string is a node name or starts with one *)
Definition string_node_ok (nodes : list string) (n : string) : bool :=
  memS n nodes || existsb (fun x => prefix x n) nodes.

Fixpoint split_link_string (linkname : string) (nodes : list string) (l : list string)
  : list (dict val) * list lerr :=
  match l with
  | [] => ([], [])
  | p :: r =>
      let n := strip p in
      let (ifs, errs) := split_link_string linkname nodes r in
      if string_node_ok nodes n then ([("node", VStr n)] :: ifs, errs)
      else (ifs, EUnknownNode linkname n :: errs)
  end.

(* links.py:66-119 adjust_link_object *)
Definition adjust_link_object (l : val) (linkname : string) (nodes : list string) : option link * list lerr :=
  match l with
  | VDict d =>
      match dget "interfaces" d with
      | Some v =>
          let (items, e1) := interfaces_list linkname v in
          let (ifs, e2) := adjust_interface_list linkname nodes items in
          (Some (dset "interfaces" (VList (map VDict ifs)) (dset "_linkname" (VStr linkname) d)), e1 ++ e2)
      | None =>
          match split_link_dict linkname nodes d [("_linkname", VStr linkname)] [] [] with
          | (attrs, ifs, errs) => (Some (dset "interfaces" (VList (map VDict ifs)) attrs), errs)
          end
      end
  | VList items =>
      let (ifs, errs) := adjust_interface_list linkname nodes items in
      (Some [("_linkname", VStr linkname); ("interfaces", VList (map VDict ifs))], errs)
  | VStr s =>
      let (ifs, errs) := split_link_string linkname nodes (split "-" s) in
      (Some [("interfaces", VList (map VDict ifs)); ("_linkname", VStr linkname)], errs)
  | _ => (None, [ELinkType linkname])
  end.

(* links.py:139 link name *)
Definition linkname_of (path : string) (cnt : nat) : string := (path ++ "[" ++ dec cnt ++ "]")%string.

(* links.py:143 *)
Definition is_disabled (l : link) : bool :=
  match dget "disable" l with Some (VBool b) => b | _ => false end.

(* links.py:137-146 *)
Fixpoint adjust_links (path : string) (nodes : list string) (cnt : nat) (l : list val)
  : list link * list lerr :=
  match l with
  | [] => ([], [])
  | x :: r =>
      let (o, e1) := adjust_link_object x (linkname_of path (S cnt)) nodes in
      let (ls, e2) := adjust_links path nodes (S cnt) r in
      match o with
      | None => (ls, e1 ++ e2)
      | Some d => if is_disabled d then (ls, e1 ++ e2) else (d :: ls, e1 ++ e2)
      end
  end.

(* links.py:121-161 adjust_link_list *)
Fixpoint adjust_link_list (links : val) (path : string) (nodes : list string) : list link * list lerr :=
  if negb (truthy links) then ([], [])
  else match links with
       | VDict d =>
           (fix go (d : list (string * val)) : list link * list lerr :=
              match d with
              | [] => ([], [])
              | (k, v) :: r =>
                  let (l1, e1) := adjust_link_list v (path ++ "." ++ k)%string nodes in
                  let (l2, e2) := go r in
                  (l1 ++ l2, e1 ++ e2)
              end) d
       | VList l => adjust_links path nodes 0 l
       | VStr _ =>
           match adjust_link_object links path nodes with
           | (Some d, e) => ([d], e)
           | (None, e) => ([], e)
           end
       | _ => ([], [EListType path])
       end.

(* links.py:1121-1126 set_linknames; [cnt] is the zero-based position. A group that is not a string
   does not survive expand_groups, so its name does not matter. *)
Definition set_linkname (cnt : nat) (l : link) : link :=
  match dget "group" l with
  | Some v =>
      if truthy v then
        dset "_linkname" (VStr (match v with VStr g => "links[" ++ g ++ "]" | _ => "links[]" end)%string) l
      else if dmem "_linkname" l then l else dset "_linkname" (VStr (linkname_of "links" (S cnt))) l
  | None => if dmem "_linkname" l then l else dset "_linkname" (VStr (linkname_of "links" (S cnt))) l
  end.

Fixpoint set_linknames (cnt : nat) (l : list link) : list link :=
  match l with
  | [] => []
  | x :: r => set_linkname cnt x :: set_linknames (S cnt) r
  end.

Definition link_name (l : link) : string :=
  match dget "_linkname" l with Some (VStr s) => s | _ => "" end.

(* links.py:1199-1201: the group data copied into the members *)
Definition group_data (l : link) : link := dpop "_linkname" (dpop "members" (dpop "group" l)).

(* links.py:1203-1206: the members of one group; None when the addition of a member that is not a link
   raises an exception *)
Fixpoint expand_members (nodes : list string) (gname : string) (gd : link) (idx : nat) (l : list val)
  : option (list link) * list lerr :=
  match l with
  | [] => (Some [], [])
  | m :: r =>
      match adjust_link_object m (linkname_of gname (S idx)) nodes with
      | (None, e) => (None, e)
      | (Some d, e1) =>
          match expand_members nodes gname gd (S idx) r with
          | (o, e2) =>
              (match o with
               | None => None
               | Some ls =>
                   match merge (VDict gd) (VDict d) with
                   | VDict x => Some (x :: ls)
                   | _ => None
                   end
               end, e1 ++ e2)
          end
      end
  end.

(* links.py:1173-1206: the links added for one link *)
Definition expand_group (nodes : list string) (l : link) : option (list link) * list lerr :=
  match dget "group" l with
  | None => (Some [], if dmem "members" l then [EMembers (link_name l)] else [])
  | Some g =>
      match must_be_id 16 g with
      | Valid _ =>
          match dget "members" l with
          | None => (Some [], [ENoMembers (link_name l)])
          | Some VNull | Some (VDict _) => (Some [], [EMembersType (link_name l); ENoMembers (link_name l)])
          | Some (VList []) => (Some [], [ENoMembers (link_name l)])
          | Some (VList ms) => expand_members nodes (link_name l) (group_data l) 0 ms
          | Some m => expand_members nodes (link_name l) (group_data l) 0 [m]
          end
      | _ => (Some [], [EGroupId (link_name l)])
      end
  end.

Fixpoint expand_each (nodes : list string) (l : list link) : option (list link) * list lerr :=
  match l with
  | [] => (Some [], [])
  | x :: r =>
      match expand_group nodes x with
      | (None, e) => (None, e)
      | (Some a, e1) =>
          match expand_each nodes r with
          | (None, e2) => (None, e1 ++ e2)
          | (Some b, e2) => (Some (a ++ b), e1 ++ e2)
          end
      end
  end.

(* links.py:1172-1209 expand_groups: new links are appended, then group links are removed *)
Definition expand_groups (nodes : list string) (l : list link) : option (list link) * list lerr :=
  match expand_each nodes l with
  | (None, e) => (None, e)
  | (Some added, e) => (Some (filter (fun x => negb (dmem "group" x)) (l ++ added)), e)
  end.

(* links.py:1131-1135 set_linkindex *)
Fixpoint index_links (idx : Z) (l : list link) : list link :=
  match l with
  | [] => []
  | x :: r => dset "linkindex" (VInt idx) x :: index_links (idx + 1)%Z r
  end.

(* links.py:1211-1215 links_init; [start] is defaults.link_index *)
Definition links_init (start : Z) (nodes : list string) (links : val) : option (list link) * list lerr :=
  let (l, e1) := adjust_link_list links "links" nodes in
  match expand_groups nodes (set_linknames 0 l) with
  | (None, e2) => (None, e1 ++ e2)
  | (Some r, e2) => (Some (index_links start r), e1 ++ e2)
  end.
