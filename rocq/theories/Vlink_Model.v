(* Model of the VLAN attributes of links in netsim/modules/vlan.py: attribute checks, VLAN trunks and their
   member links, access and native VLANs, and VLAN interfaces of nodes without a port in the VLAN.
   Definitions only. Interface and link data are dictionaries of values (Box_Model.v); the node name, the
   vlan attribute and the list of interfaces are kept separately. Not modelled: error texts, VLAN names that
   are not strings, debugging output, the flag of the mixed forwarding mode check (true by default).
   None stands for an exception or a fatal error. Sets of names are lists; [pick] selects the first element
   of a set. *)
From Coq Require Import String ZArith Bool List.
From Verif Require Import Base Box_Model Vlan_Model.
Import ListNotations.
Local Open Scope string_scope.
Local Open Scope list_scope.

Record vif := mk_vif {
  vf_node : string;
  vf_vlan : option val;       (* the vlan attribute *)
  vf_data : dict val          (* other attributes *)
}.

Record vlk := mk_vlk {
  vk_name : string;           (* _linkname *)
  vk_index : Z;               (* linkindex *)
  vk_vlan : option val;
  vk_data : dict val;
  vk_ifs : list vif
}.

Record vnd := mk_vnd {
  nd_vlans : dict (dict val); (* vlans of the node, empty when there are none *)
  nd_mode : option val;       (* vlan.mode *)
  nd_aware : bool             (* 'vlan' in module *)
}.

Record vtp := mk_vtp {
  tv_vlans : dict (dict val); (* global VLANs *)
  tv_mode : option val;       (* vlan.mode *)
  tv_nodes : dict vnd;
  tv_skip : list string       (* defaults.vlan.attributes.vlan_no_propagate *)
}.

Inductive vke :=
| KNotDict (w : option string)             (* vlan.py:149-154; [w]: the node, or None for the link *)
| KUnknown (w : option string) (a : string) (* 160-166 *)
| KType (w : option string) (a : string)    (* 172-182 *)
| KUndef (w : option string) (a v : string) (* 207-220 *)
| KMix                                      (* 230-235 *)
| KNative                                   (* 237-242 *)
| KGlobal                                   (* 244-253 *)
| KNativeTrunk                              (* 289-293 *)
| KIfNoTrunk (n : string)                   (* 301-305 *)
| KIfNative (n : string)                    (* 306-310 *)
| KIfMissing (n : string)                   (* 313-318 *)
| KNoNative                                 (* 385-390 *)
| KUnused (n v : string).                   (* 421-425 *)

Definition node_of (t : vtp) (n : string) : vnd := match dget n (tv_nodes t) with Some x => x | None => mk_vnd [] None false end.

(* ---- check_link_vlan_attributes ---- *)

(* vlan.py:196-205: the VLANs found in one attribute; use_count is not modelled, it is used only in the
   lines 268-275 that are never executed *)
Record vcol := mk_vcol {
  co_list : list string;      (* list and set *)
  co_global : list string;    (* global_vlan *)
  co_nodes : list string      (* node_set *)
}.

(* vlan.py:17-22 *)
Definition LINK_ATTR : list string := ["access"; "native"; "mode"; "trunk"].

(* vlan.py:170-190: the attribute value after the type check; None - incorrect type *)
Definition conv (a : string) (v : val) : option val :=
  if String.eqb a "trunk" then
    match v with
    | VDict d => Some (VDict (map (fun kv => (fst kv, match snd kv with VNull => VDict [] | x => x end)) d))
    | VList l => Some (VDict (fold_left (fun d x => match x with VStr s => dset s (VDict []) d | _ => d end) l []))
    | _ => None
    end
  else match v with VStr s => Some v | _ => None end.

(* vlan.py:195 *)
Definition vlan_names (v : val) : list string := match v with VStr s => [s] | VDict d => dkeys d | _ => [] end.

Definition is_global (t : vtp) (v : string) : bool := dmem v (tv_vlans t).
Definition is_local (t : vtp) (w : option string) (v : string) : bool :=
  match w with Some n => dmem v (nd_vlans (node_of t n)) | None => false end.
Definition node_list (w : option string) : list string := match w with Some n => [n] | None => [] end.

Definition cstate := (dict val * dict vcol * bool * list vke)%type.

(* vlan.py:168-220: one attribute *)
Definition check_attr (t : vtp) (w : option string) (st : cstate) (a : string) : cstate :=
  match st with
  | (d, va, ok, errs) =>
      match dget a d with
      | None => st
      | Some v =>
          match conv a v with
          | None => (d, va, false, errs ++ [KType w a])
          | Some v' =>
              let d' := dset a v' d in
              if String.eqb a "mode" then (d', va, ok, errs)
              else
                let names := vlan_names v' in
                let c := match dget a va with Some c => c | None => mk_vcol [] [] [] end in
                let loc := filter (fun x => negb (is_global t x) && is_local t w x) names in
                let bad := filter (fun x => negb (is_global t x) && negb (is_local t w x)) names in
                let c' := mk_vcol (co_list c ++ names) (co_global c ++ filter (is_global t) names)
                            (match loc with [] => co_nodes c | _ => co_nodes c ++ node_list w end) in
                (d', dset a c' va, ok && match bad with [] => true | _ => false end, errs ++ map (KUndef w a) bad)
          end
      end
  end.

(* vlan.py:144-222 check_link_vlan_attributes *)
Definition check_obj (t : vtp) (w : option string) (o : option val) (va : dict vcol) : option val * dict vcol * bool * list vke :=
  match o with
  | None => (None, va, true, [])
  | Some (VDict d) =>
      let unk := filter (fun a => negb (memS a LINK_ATTR)) (dkeys d) in
      match fold_left (check_attr t w) LINK_ATTR
              (d, va, match unk with [] => true | _ => false end, map (KUnknown w) unk) with
      | (d', va', ok, errs) => (Some (VDict d'), va', ok, errs)
      end
  | Some v => (Some v, va, false, [KNotDict w])
  end.

(* vlan.py:1303-1305: the interfaces after the first error are not checked *)
Fixpoint check_ifs (t : vtp) (l : list vif) (va : dict vcol) : list vif * dict vcol * bool * list vke :=
  match l with
  | [] => ([], va, true, [])
  | i :: r =>
      match check_obj t (Some (vf_node i)) (vf_vlan i) va with
      | (o, va1, false, e) => (mk_vif (vf_node i) o (vf_data i) :: r, va1, false, e)
      | (o, va1, true, e) =>
          match check_ifs t r va1 with
          | (r', va2, ok, e2) => (mk_vif (vf_node i) o (vf_data i) :: r', va2, ok, e ++ e2)
          end
      end
  end.

Definition set_ifs (l : vlk) (ifs : list vif) : vlk := mk_vlk (vk_name l) (vk_index l) (vk_vlan l) (vk_data l) ifs.
Definition set_vlan (l : vlk) (o : option val) : vlk := mk_vlk (vk_name l) (vk_index l) o (vk_data l) (vk_ifs l).
Definition set_data (l : vlk) (d : dict val) : vlk := mk_vlk (vk_name l) (vk_index l) (vk_vlan l) d (vk_ifs l).

(* vlan.py:1300-1305 *)
Definition check_link (t : vtp) (l : vlk) : vlk * dict vcol * bool * list vke :=
  match check_obj t None (vk_vlan l) [] with
  | (o, va, false, e) => (set_vlan l o, va, false, e)
  | (o, va, true, e) =>
      match check_ifs t (vk_ifs l) va with
      | (ifs, va', ok, e2) => (set_ifs (set_vlan l o) ifs, va', ok, e ++ e2)
      end
  end.

(* ---- validate_link_vlan_attributes ---- *)

(* obj.get('vlan.attr') when it is not empty *)
Definition vget (o : option val) (a : string) : option val :=
  match o with
  | Some v => match lookup [a] v with Some x => if truthy x then Some x else None | None => None end
  | None => None
  end.

(* modules/__init__.py:424-447 get_effective_module_attribute on an interface and a link *)
Definition effective (a : string) (i l : option val) : option val :=
  match vget i a with
  | Some x =>
      if is_dict x then match vget l a with
                        | Some y => if is_dict y then Some (merge y x) else Some y
                        | None => Some x
                        end
      else Some x
  | None => vget l a
  end.

Definition vmember (n : string) (v : val) : bool := match v with VDict d => dmem n d | _ => false end.

(* vlan.py:296-322: the native VLAN on one interface; [nat] is the first native VLAN of the link *)
Definition native_intf (nat : string) (lv : option val) (i : vif) : vif * list vke :=
  match vf_vlan i with
  | None => (i, [])
  | Some _ =>
      let trunk := effective "trunk" (vf_vlan i) lv in
      match effective "native" (vf_vlan i) lv with
      | Some nv =>
          match trunk with
          | None => (i, [KIfNoTrunk (vf_node i)])
          | Some tr => (i, if match nv with VStr s => vmember s tr | _ => false end then [] else [KIfNative (vf_node i)])
          end
      | None =>
          match trunk with
          | Some tr =>
              if vmember nat tr then (i, [KIfMissing (vf_node i)])
              else (mk_vif (vf_node i) (vf_vlan i) (dset "ipv6" (VBool false) (dset "ipv4" (VBool false) (vf_data i))), [])
          | None => (i, [])
          end
      end
  end.

Definition colist (a : string) (va : dict vcol) : list string := match dget a va with Some c => co_list c | None => [] end.

(* set(l) has more than one element *)
Definition several (l : list string) : bool := match nodup string_dec l with _ :: _ :: _ => true | _ => false end.

(* vlan.py:227-323 validate_link_vlan_attributes: the result, the interfaces and the errors. The loop in
   lines 262-286 does nothing: v_attr has no 'vlan' key (line 266). The warning in lines 255-260 is not
   modelled. *)
Definition validate_link (va : dict vcol) (l : vlk) : bool * vlk * list vke :=
  if dmem "trunk" va && dmem "access" va then (false, l, [KMix])
  else if dmem "native" va && negb (dmem "trunk" va) then (false, l, [KNative])
  else if match dget "access" va with Some c => several (co_global c) | None => false end then (false, l, [KGlobal])
  else
    match colist "native" va with
    | [] => (true, l, [])
    | nat :: _ =>
        if negb (existsb (fun x => memS x (colist "trunk" va)) (colist "native" va)) then (true, l, [KNativeTrunk])
        else
          let r := map (native_intf nat (vk_vlan l)) (vk_ifs l) in
          (true, set_ifs l (map fst r), flat_map snd r)
    end.

(* vlan.py:1314-1318: link attributes are merged into interface attributes *)
Definition merge_intf (t : vtp) (lv : val) (i : vif) : vif :=
  if nd_aware (node_of t (vf_node i))
  then mk_vif (vf_node i) (Some (merge lv (match vf_vlan i with Some x => x | None => VDict [] end))) (vf_data i)
  else i.
Definition merge_link (t : vtp) (l : vlk) : vlk :=
  match vk_vlan l with
  | Some lv => set_ifs l (map (merge_intf t lv) (vk_ifs l))
  | None => l
  end.

(* ---- validate_trunk_vlan_list ---- *)

Definition has_vlan (i : vif) : bool := match vf_vlan i with Some _ => true | None => false end.
Definition vattr_of (a : string) (i : vif) : option val :=
  match vf_vlan i with Some v => lookup [a] v | None => None end.
Definition in_trunk (v : string) (i : vif) : bool :=
  match vattr_of "trunk" i with Some tr => vmember v tr | None => false end.

(* vlan.py:399-425: the VLANs of one interface *)
Fixpoint unused_vlans (needs : bool) (i : vif) (others : list vif) (names : list string) : list vke :=
  match names with
  | [] => []
  | v :: r =>
      (if existsb (in_trunk v) others then []
       else if match vattr_of "native" i with Some (VStr s) => String.eqb v s | _ => false end && needs then []
       else [KUnused (vf_node i) v]) ++ unused_vlans needs i others r
  end.

(* vlan.py:392-425: all interfaces; None - a VLAN interface without a trunk *)
Fixpoint trunk_errors (needs : bool) (before after : list vif) : option (list vke) :=
  match after with
  | [] => Some []
  | i :: r =>
      if has_vlan i then
        match vattr_of "trunk" i with
        | Some (VDict tr) =>
            match trunk_errors needs (before ++ [i]) r with
            | Some e => Some (unused_vlans needs i (before ++ r) (dkeys tr) ++ e)
            | None => None
            end
        | _ => None
        end
      else trunk_errors needs (before ++ [i]) r
  end.

(* vlan.py:377-427 validate_trunk_vlan_list *)
Definition validate_trunk (ifs : list vif) : option (list vke) :=
  let needs := negb (forallb has_vlan ifs) in
  let native := existsb (fun i => match vattr_of "native" i with Some _ => true | None => false end) ifs in
  if needs && negb native then Some [KNoNative] else trunk_errors needs [] ifs.

(* ---- forwarding modes ---- *)

Fixpoint first_true (l : list (option val)) : val :=
  match l with
  | [] => VStr "irb"
  | Some v :: r => if truthy v then v else first_true r
  | None :: r => first_true r
  end.

(* vlan.py:510-520 compute_interface_vlan_mode: [v] the VLAN, [saved] the _vlan_mode, [im] the vlan.mode of the interface *)
Definition compute_mode (t : vtp) (n : string) (v : option string) (saved im : option val) : val :=
  match v with
  | None | Some "" => VStr "irb"
  | Some x =>
      first_true [saved; im;
        match dget x (nd_vlans (node_of t n)) with Some d => dget "mode" d | None => None end;
        nd_mode (node_of t n);
        match dget x (tv_vlans t) with Some d => dget "mode" d | None => None end;
        tv_mode t]
  end.

Definition is_str (s : string) (v : val) : bool := match v with VStr x => String.eqb s x | _ => false end.

(* ---- member links ---- *)

Record mlink := mk_ml {
  ml_data : dict val;          (* link attributes without the interfaces *)
  ml_ifs : list (dict val)
}.

(* d.vlan.a = v; None - vlan is not a dictionary *)
Definition set_vattr (a : string) (v : val) (d : dict val) : option (dict val) :=
  match dget "vlan" d with
  | None => Some (dset "vlan" (VDict [(a, v)]) d)
  | Some (VDict x) => Some (dset "vlan" (VDict (dset a v x)) d)
  | Some _ => None
  end.

Definition bind {A B} (o : option A) (f : A -> option B) : option B := match o with Some x => f x | None => None end.

(* vlan.py:456-459 fix_vlan_mode_attribute *)
Definition fix_mode (d : dict val) : option (dict val) :=
  match dget "mode" d with
  | Some m => bind (set_vattr "mode" m d) (fun d' => Some (dpop "mode" d'))
  | None => Some d
  end.

(* vlan.py:603-608 *)
Definition add_global (t : vtp) (v : string) (d : dict val) : dict val :=
  match dget v (tv_vlans t) with
  | Some g => fold_left (fun x kv => if memS (fst kv) (tv_skip t) then x else dset (fst kv) (snd kv) x) g d
  | None => d
  end.

(* vlan.py:591-610 create_vlan_link_data; the list of interfaces is kept separately, [idx] is the link index *)
Definition link_data (t : vtp) (init : dict val) (v : string) (parent : val) (idx : Z) : option (dict val) :=
  bind (set_vattr "access" (VStr v) (dset "parentindex" parent (dset "linkindex" (VInt idx) init))) (fun d1 =>
  bind (fix_mode (dset "type" (VStr "vlan_member") (dset "vlan_name" (VStr v) d1))) (fun d2 =>
  Some (add_global t v d2))).

(* vlan.py:616-637 create_vlan_member_interface; [pm] is the vlan.mode of the parent interface *)
Definition member_intf (t : vtp) (init : dict val) (v n : string) (pm : option val) (k : nat) : option (dict val) :=
  bind (set_vattr "access" (VStr v) (dset "_selfloop_ifindex" (VInt (Z.of_nat k)) (dset "node" (VStr n) init))) (fun d1 =>
  let im := vget (dget "vlan" d1) "mode" in
  bind (match pm, im with Some m, None => set_vattr "mode" m d1 | _, _ => Some d1 end) (fun d2 =>
  let m := compute_mode t n (Some v) (dget "_vlan_mode" d2) (vget (dget "vlan" d2) "mode") in
  let d3 := dset "_vlan_mode" m d2 in
  Some (if is_str "bridge" m then dset "ipv6" (VBool false) (dset "ipv4" (VBool false) d3) else d3))).

(* a value or an empty dictionary; None - not a dictionary *)
Definition dict_or_empty (v : option val) : option (dict val) :=
  match v with
  | None => Some []
  | Some (VDict d) => Some d
  | Some x => if truthy x then None else Some []
  end.

(* vlan.py:658-670: the interfaces of a member link and the prefix *)
Fixpoint member_ifs (t : vtp) (v : string) (l : list vif) (k : nat) (pfx : option val) : option (list (dict val) * option val) :=
  match l with
  | [] => Some ([], pfx)
  | i :: r =>
      if in_trunk v i then
        bind (dict_or_empty (match vattr_of "trunk" i with Some tr => lookup [v] tr | None => None end)) (fun init =>
        bind (member_intf t init v (vf_node i) (vattr_of "mode" i) k) (fun d =>
        let bridge := match dget "_vlan_mode" d with Some m => is_str "bridge" m | None => false end in
        let pfx' := match pfx with
                    | Some p => if truthy p then pfx else
                        match dget v (nd_vlans (node_of t (vf_node i))) with
                        | Some nv => if bridge then pfx else dget "prefix" nv
                        | None => pfx
                        end
                    | None =>
                        match dget v (nd_vlans (node_of t (vf_node i))) with
                        | Some nv => if bridge then None else dget "prefix" nv
                        | None => None
                        end
                    end in
        bind (member_ifs t v r (S k) pfx') (fun res => Some (d :: fst res, snd res))))
      else member_ifs t v r k pfx
  end.

(* vlan.py:35-48 routed_access_vlan on the forwarding modes of the interfaces *)
Definition routed (modes : list (option val)) : bool :=
  let ms := flat_map (fun o => match o with Some VNull => [] | Some m => [m] | None => [] end) modes in
  match ms with [] => false | _ => forallb (is_str "route") ms end.

Fixpoint all_some {A} (l : list (option A)) : option (list A) :=
  match l with
  | [] => Some []
  | Some x :: r => match all_some r with Some y => Some (x :: y) | None => None end
  | None :: _ => None
  end.

(* vlan.py:649-682: the member link of one VLAN *)
Definition member_link (t : vtp) (l : vlk) (v : string) (idx : Z) : option mlink :=
  bind (dict_or_empty (match vk_vlan l with Some lv => lookup ["trunk"; v] lv | None => None end)) (fun init =>
  bind (link_data t (dset "_linkname" (VStr (vk_name l ++ "." ++ v)) init) v (VInt (vk_index l)) idx) (fun d =>
  bind (member_ifs t v (vk_ifs l) 0 (match dget v (tv_vlans t) with Some g => dget "prefix" g | None => None end)) (fun res =>
  let (ifs, pfx) := res in
  if routed (map (dget "_vlan_mode") ifs) then
    bind (set_vattr "mode" (VStr "route") d) (fun d' =>
    bind (all_some (map (set_vattr "mode" (VStr "route")) ifs)) (fun ifs' => Some (mk_ml d' ifs')))
  else Some (mk_ml (match pfx with Some VNull => d | Some p => dset "prefix" p d | None => d end) ifs)))).

(* sorted(set) *)
Definition sorted_set (l : list string) : list string := fold_left (fun acc x => insert_sorted x acc) l [].

Fixpoint member_links (t : vtp) (l : vlk) (names : list string) (idx : Z) : option (list mlink) :=
  match names with
  | [] => Some []
  | v :: r => bind (member_link t l v idx) (fun m => bind (member_links t l r (idx + 1)%Z) (fun ms => Some (m :: ms)))
  end.

(* vlan.py:642-682 create_vlan_links: the new links; [idx] is the next link index *)
Definition create_vlan_links (t : vtp) (l : vlk) (va : dict vcol) (idx : Z) : option (list mlink) :=
  let native := match colist "native" va with x :: _ => Some x | [] => None end in
  member_links t l (filter (fun v => match native with Some x => negb (String.eqb v x) | None => true end)
                      (sorted_set (colist "trunk" va))) idx.

(* ---- access and native VLANs ---- *)

Section Access.
  Variable pick : list string -> string.     (* list(set)[0] *)

  (* vlan.py:442-451 get_link_access_vlan *)
  Definition access_vlan (va : dict vcol) : option string :=
    match colist "access" va with
    | [] => match colist "native" va with [] => None | l => Some (pick l) end
    | l => Some (pick l)
    end.

  (* vlan.py:525-529 set_access_vlan_interface_mode *)
  Definition set_intf_mode (t : vtp) (i : vif) : vif :=
    match vf_vlan i with
    | None => i
    | Some v =>
        let name := match vget (vf_vlan i) "access" with Some (VStr s) => Some s | _ =>
                      match vget (vf_vlan i) "native" with Some (VStr s) => Some s | _ => None end end in
        mk_vif (vf_node i) (vf_vlan i)
          (dset "_vlan_mode" (compute_mode t (vf_node i) name (dget "_vlan_mode" (vf_data i)) (vget (vf_vlan i) "mode")) (vf_data i))
    end.

  (* vlan.py:1334-1346: the attributes of the global VLAN added to the link; [d] are the attributes of the link *)
  Definition add_vlan_data (t : vtp) (g : dict val) (l : vlk) : option vlk :=
    bind (fix_mode (filter (fun kv => negb (memS (fst kv) (tv_skip t))) g)) (fun vd =>
    Some (fold_left (fun l kv =>
      let (k, v) := (fst kv, snd kv) in
      if String.eqb k "vlan" then
        match vk_vlan l with
        | None => set_vlan l (Some v)
        | Some x => if is_dict x && is_dict v then set_vlan l (Some (merge v x)) else l
        end
      else
        match dget k (vk_data l) with
        | None => set_data l (dset k v (vk_data l))
        | Some x => if is_dict x && is_dict v then set_data l (dset k (merge v x) (vk_data l)) else l
        end) vd l)).

  (* vlan.py:432-437 copy_vlan_attributes *)
  Definition copy_vlan (v : string) (vd : dict val) (d : dict val) : dict val :=
    let d1 := match dget "prefix" vd with Some p => dset "prefix" p d | None => d end in
    let d2 := if dmem "type" d1 then d1 else dset "type" (match dget "type" vd with Some x => x | None => VStr "lan" end) d1 in
    dset "vlan_name" (VStr v) d2.

  (* vlan.py:556-586 set_link_vlan_prefix; None - log.fatal *)
  Definition set_prefix (t : vtp) (va : dict vcol) (d : dict val) : option (dict val) :=
    let use (c : vcol) :=
      match co_list c with
      | [] => Some d
      | names =>
          let v := pick names in
          match dget v (tv_vlans t) with
          | Some g => Some (copy_vlan v g d)
          | None =>
              match co_nodes c with
              | [] => None
              | ns => Some (copy_vlan v (match dget v (nd_vlans (node_of t (pick ns))) with Some x => x | None => [] end) d)
              end
          end
      end in
    match dget "access" va, dget "native" va, dget "trunk" va with
    | Some c, _, _ => use c
    | None, Some c, _ => use c
    | None, None, Some _ =>
        if dmem "role" d || dmem "prefix" d || dmem "pool" d then Some d else Some (dset "prefix" (VDict []) d)
    | None, None, None => Some d
    end.

  (* vlan.py:1355-1360 *)
  Definition bridge_intf (t : vtp) (i : vif) : vif :=
    if nd_aware (node_of t (vf_node i)) &&
       match dget "_vlan_mode" (vf_data i) with Some m => is_str "bridge" m | None => false end
    then mk_vif (vf_node i) (vf_vlan i) (dset "ipv6" (VBool false) (dset "ipv4" (VBool false) (vf_data i)))
    else i.

  Definition set_route (i : vif) : vif :=
    match vf_vlan i with
    | Some (VDict d) => mk_vif (vf_node i) (Some (VDict (dset "mode" (VStr "route") d))) (vf_data i)
    | _ => i
    end.

  (* vlan.py:1327-1360: the second part of link_pre_transform *)
  Definition access_link (t : vtp) (va : dict vcol) (l : vlk) : option vlk :=
    match access_vlan va with
    | None => bind (set_prefix t va (vk_data l)) (fun d => Some (set_data l d))
    | Some v =>
        let l1 := set_ifs l (map (set_intf_mode t) (vk_ifs l)) in
        let rt := routed (map (fun i => dget "_vlan_mode" (vf_data i)) (vk_ifs l1)) in
        bind (match dget v (tv_vlans t) with Some g => add_vlan_data t g l1 | None => Some l1 end) (fun l2 =>
        bind (if rt then
                match vk_vlan l2 with
                | Some (VDict x) => Some (set_ifs (set_vlan l2 (Some (VDict (dset "mode" (VStr "route") x)))) (map set_route (vk_ifs l2)))
                | None => Some (set_ifs (set_vlan l2 (Some (VDict [("mode", VStr "route")]))) (map set_route (vk_ifs l2)))
                | Some _ => None
                end
              else bind (set_prefix t va (vk_data l2)) (fun d => Some (set_data l2 d))) (fun l3 =>
        Some (set_ifs l3 (map (bridge_intf t) (vk_ifs l3)))))
    end.

  (* vlan.py:1296-1360 link_pre_transform: the link, the new links and the errors; None - an exception *)
  Definition link_pre_transform (t : vtp) (l : vlk) (idx : Z) : option (vlk * list mlink * list vke) :=
    match dget "type" (vk_data l) with
    | Some (VStr "vlan_member") => Some (l, [], [])
    | _ =>
        match check_link t l with
        | (l1, _, false, e1) => Some (l1, [], e1)
        | (l1, va, true, e1) =>
            match validate_link va l1 with
            | (false, l2, e2) => Some (l2, [], e1 ++ e2)
            | (true, l2, e2) =>
                let l3 := merge_link t l2 in
                match (if dmem "trunk" va then validate_trunk (vk_ifs l3) else Some []) with
                | None => None
                | Some (e :: r) => Some (l3, [], e1 ++ e2 ++ e :: r)
                | Some [] =>
                    bind (if dmem "trunk" va then create_vlan_links t l3 va idx else Some []) (fun ms =>
                    bind (access_link t va l3) (fun l4 => Some (l4, ms, e1 ++ e2)))
                end
            end
        end
    end.
End Access.

(* ---- create_loopback_vlan_links ---- *)

(* vlan.py:694-703: the node is attached to a link with the VLAN; [links]: VLAN name and nodes *)
Definition attached (links : list (option string * list string)) (n v : string) : bool :=
  existsb (fun l => match fst l with Some x => String.eqb x v && memS n (snd l) | None => false end) links.

Definition opt_prefix (t : vtp) (v : string) : option val := match dget v (tv_vlans t) with Some g => dget "prefix" g | None => None end.

(* vlan.py:715-729: one VLAN of a node *)
Definition loop_link (t : vtp) (n v : string) (idx : Z) : option (option mlink) :=
  bind (link_data t [("_linkname", VStr ("nodes." ++ n ++ ".vlans." ++ v))] v (VStr "loopback") idx) (fun d =>
  let d' := match opt_prefix t v with Some p => if truthy p then dset "prefix" p d else d | None => d end in
  bind (member_intf t [] v n None 0) (fun i =>
  Some (if match dget "_vlan_mode" i with Some m => is_str "irb" m | None => false end then Some (mk_ml d' [i]) else None))).

Fixpoint loop_vlans (t : vtp) (links : list (option string * list string)) (n : string) (vs : list string) (idx : Z)
  : option (list mlink * Z) :=
  match vs with
  | [] => Some ([], idx)
  | v :: r =>
      if attached links n v then loop_vlans t links n r idx
      else
        bind (loop_link t n v idx) (fun o =>
        match o with
        | None => loop_vlans t links n r idx
        | Some m => bind (loop_vlans t links n r (idx + 1)%Z) (fun res => Some (m :: fst res, snd res))
        end)
  end.

Fixpoint loop_nodes (t : vtp) (links : list (option string * list string)) (ns : list (string * vnd)) (idx : Z) : option (list mlink) :=
  match ns with
  | [] => Some []
  | (n, nd) :: r =>
      bind (loop_vlans t links n (dkeys (nd_vlans nd)) idx) (fun res =>
      bind (loop_nodes t links r (snd res)) (fun ms => Some (fst res ++ ms)))
  end.

(* vlan.py:693-729 create_loopback_vlan_links: the new links. Reading the prefix of a VLAN that is not global
   (line 720) creates an empty global VLAN; it has no effect on the new links. *)
Definition create_loopback_links (t : vtp) (links : list (option string * list string)) (idx : Z) : option (list mlink) :=
  loop_nodes t links (tv_nodes t) idx.
