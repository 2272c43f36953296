(* Model of netsim/modules/_routing.py: route import requests, default routes and VRF checks of routing protocols, and of
   netsim/modules/__init__.py: node attributes copied into interfaces. Definitions only. *)
From Coq Require Import String Ascii ZArith Bool List.
From Verif Require Import Base Box_Model.
Import ListNotations.
Local Open Scope string_scope.
Local Open Scope list_scope.

(* the feature <protocol>.import of a device: missing or False, True, a list *)
Inductive fimport := FNo | FYes | FList (l : list string).

Inductive ierror := INotSupported | ICannot (p : string) | INotRunning (p : string) | ISelf (p : string) | INoPolicy (p : string).

Section Import.
Variable feature : fimport.
Variable proto : string.                                   (* target protocol *)
Variable modules : list string.                            (* modules of the node *)

(* _routing.py:539 check_import_request: the source protocol can be imported *)
Definition can_import (p : string) : bool := match feature with FList l => memS p l | _ => true end.

(* _routing.py:545-550 check_import_request: data of a source protocol; they are booleans and dictionaries *)
Definition import_data (x : string * val) : dict val :=
  if can_import (fst x) then
    match snd x with
    | VBool false => []
    | VBool true => [(fst x, VDict [])]
    | _ => [x]
    end
  else [x].

(* _routing.py:539-565 check_import_request: errors of a source protocol before the policy is checked *)
Definition import_error (x : string * val) : list ierror :=
  if can_import (fst x) then
    match snd x with
    | VBool false => []
    | _ => if negb (memS (fst x) modules) && negb (String.eqb (fst x) "connected") then [INotRunning (fst x)]
           else if String.eqb (fst x) proto then [ISelf (fst x)] else []
    end
  else [ICannot (fst x)].

Definition import_policy (v : val) : option val :=
  match v with VDict e => match dget "policy" e with Some p => if truthy p then Some p else None | None => None end | _ => None end.

(* _routing.py:508-510 node_add_routing_policy: policies that are not texts are ignored *)
Definition policy_name (p : val) : list string := match p with VStr s => [s] | _ => [] end.

(* _routing.py:538-578 check_import_request: the loop. Data, errors, policies added to the node. None - TypeError, "in" with
   the value True. *)
Fixpoint import_loop (d : dict val) : option (dict val * list ierror * list string) :=
  match d with
  | [] => Some ([], [], [])
  | x :: r =>
      let next e p := match import_loop r with
                      | Some (d1, e1, p1) => Some (import_data x ++ d1, e ++ e1, p ++ p1)
                      | None => None
                      end in
      match import_error x with
      | [] =>
          match (if can_import (fst x) then import_policy (snd x) else None) with
          | None => next [] []
          | Some p =>
              match feature with
              | FList l => if memS "no_policy" l then Some (import_data x ++ r, [INoPolicy (fst x)], []) else next [] (policy_name p)
              | _ => None
              end
          end
      | e => next e []
      end
  end.

(* _routing.py:580-582 check_import_request *)
Definition rename_rip (d : dict val) : dict val :=
  match dget "ripv2" d with Some v => dpop "ripv2" (dset "rip" v d) | None => d end.

(* _routing.py:522-582 check_import_request *)
Definition check_import (d : dict val) : option (dict val * list ierror * list string) :=
  match feature with
  | FNo => Some (d, [INotSupported], [])
  | FList [] => Some (d, [INotSupported], [])
  | _ => match import_loop d with
         | Some (d1, e, p) => Some (rename_rip d1, e, p)
         | None => None
         end
  end.
End Import.

(* errors with the VRF; None - global routing table *)
Inductive derror := DNotSupported (vrf : option string) | DNoPolicy (vrf : option string).

Section Default.
Variable feature : option val.                             (* the feature <protocol>.default of a device *)
Variable proto : string.

Definition truthy_opt (v : option val) : bool := match v with Some x => truthy x | None => false end.

(* _routing.py:671-695 default_route_adjust: protocol data *)
Definition default_data (vrf : option string) (pd : dict val) : dict val * list derror * list string :=
  match dget "default" pd with
  | None => (pd, [], [])
  | Some (VBool false) => (dpop "default" pd, [], [])
  | Some v =>
      let v1 := match v with VBool true => VDict [("enabled", VBool true)] | _ => v end in
      let pd1 := dset "default" v1 pd in
      if truthy_opt feature then
        match v1 with
        | VDict e =>
            match dget "policy" e with
            | None => (pd1, [], [])
            | Some p => match feature with
                        | Some (VDict f) => if truthy_opt (dget "policy" f) then (pd1, [], match p with VStr s => if String.eqb s "" then [] else [s] | _ => [] end)
                                            else (pd1, [DNoPolicy vrf], [])
                        | _ => (pd1, [DNoPolicy vrf], [])
                        end
            end
        | _ => (pd1, [], [])
        end
      else (pd1, [DNotSupported vrf], [])
  end.

(* _routing.py:661-695 default_route_adjust: a node or a VRF; protocol data are dictionaries *)
Definition default_adjust (vrf : option string) (vd : dict val) : dict val * list derror * list string :=
  match dget proto vd with
  | Some (VDict pd) => let '(pd1, e, p) := default_data vrf pd in (dset proto (VDict pd1) vd, e, p)
  | _ => (vd, [], [])
  end.

(* _routing.py:698-715 process_default_route *)
Definition default_route (node : dict val) (vrfs : dict (dict val)) : dict val * dict (dict val) * list derror * list string :=
  let '(n1, e, p) := default_adjust None node in
  let one x := default_adjust (Some (fst x)) (snd x) in
  (n1, map (fun x => (fst x, fst (fst (one x)))) vrfs, e ++ flat_map (fun x => snd (fst (one x))) vrfs, p ++ flat_map (fun x => snd (one x)) vrfs).
End Default.

(* _routing.py:335-345 remove_vrf_routing_blocks *)
Definition remove_blocks (proto : string) (vrfs : dict (dict val)) : dict (dict val) :=
  map (fun x => (fst x, match dget proto (snd x) with Some (VBool false) => dpop proto (snd x) | _ => snd x end)) vrfs.

(* a VRF: address families; address families of the protocol (None - the protocol is not used in the VRF) *)
Record svrf := mk_sv { sv_af : list string; sv_proto : option (dict val) }.

(* _routing.py:357-383 check_vrf_protocol_support; the result: VRFs, the name of the VRF with an error *)
Fixpoint vrf_support (af : option string) (supported : bool) (vrfs : dict svrf) : dict svrf * option string :=
  match vrfs with
  | [] => ([], None)
  | (n, v) :: r =>
      let skip := let (r1, e) := vrf_support af supported r in ((n, v) :: r1, e) in
      match sv_proto v with
      | None => skip
      | Some pa =>
          if match af with Some a => negb (memS a (sv_af v)) | None => false end then skip
          else if supported then
            let v1 := match af with Some a => mk_sv (sv_af v) (Some (dset a (VBool true) pa)) | None => v end in
            let (r1, e) := vrf_support af supported r in ((n, v1) :: r1, e)
          else ((n, v) :: r, Some n)
      end
  end.

(* an interface: name, attributes of the modules *)
Record iintf := mk_ii { ii_name : string; ii_mods : dict (list string) }.

(* utils/routing.py:72-89 igp_interfaces; vrfs - interfaces of the VRF instances of the protocol. The last check uses the text
   'proto', not the name of the protocol. *)
Definition igp_interfaces (proto : string) (ifs : list iintf) (vrfs : list (list iintf)) : list iintf :=
  filter (fun i => dmem proto (ii_mods i)) ifs ++ flat_map (filter (fun i => dmem "proto" (ii_mods i))) vrfs.

(* data/__init__.py:37-47 append_to_list *)
Definition append_to_list (k x : string) (d : dict (list string)) : dict (list string) :=
  match dget k d with
  | None => dset k [x] d
  | Some l => if memS x l then d else dset k (l ++ [x]) d
  end.

(* _routing.py:398-403 check_intf_support: an interface *)
Definition intf_step (proto : string) (optional features : list string) (d : dict (list string)) (i : iintf) : dict (list string) :=
  fold_left (fun d1 kw => if memS kw optional && negb (memS kw features) then append_to_list kw (ii_name i) d1 else d1)
            (match dget proto (ii_mods i) with Some l => l | None => [] end) d.

(* _routing.py:388-415 check_intf_support: unsupported attributes with names of interfaces *)
Definition intf_support (proto : string) (optional : option (list string)) (features : list string) (ifs : list iintf) (vrfs : list (list iintf)) : dict (list string) :=
  match optional with
  | None => []
  | Some o => fold_left (intf_step proto o features) (igp_interfaces proto ifs vrfs) []
  end.

Definition pick (l : list string) (d : dict val) : dict val := filter (fun x => memS (fst x) l) d.
Definition badd (a b : dict val) : dict val := match merge (VDict a) (VDict b) with VDict d => d | _ => [] end.

(* modules/__init__.py:406-417 copy_node_data_into_interfaces: a module and an interface. [node]: node data of the module. Module data
   of VRFs are dictionaries or False. *)
Definition copy_intf (m : string) (node_copy vrf_aware : list string) (node : dict val) (vrfs : dict (dict val)) (i : dict val) : dict val :=
  let copy vrf_attr :=
    match pick node_copy node, vrf_attr with
    | [], [] => i
    | _, _ => dset m (VDict (badd (badd (pick node_copy node) vrf_attr) (match dget m i with Some (VDict d) => d | _ => [] end))) i
    end in
  match dget m i with
  | None | Some (VDict _) =>
      match dget "vrf" i with
      | Some (VStr v) =>
          match vrf_aware with
          | [] => copy []
          | _ => copy (match dget v vrfs with
                       | Some vd => match dget m vd with Some (VDict d) => pick vrf_aware d | _ => [] end
                       | None => []
                       end)
          end
      | _ => copy []
      end
  | _ => i
  end.

(* modules/__init__.py:394-417 copy_node_data_into_interfaces: a node. [attrs]: node_copy and vrf_aware attributes of a module *)
Definition copy_node (attrs : string -> list string * list string) (mods : list string) (node : dict val) (vrfs : dict (dict val)) (ifs : list (dict val)) : list (dict val) :=
  fold_left (fun l m =>
    match fst (attrs m) with
    | [] => l
    | nc => map (copy_intf m nc (snd (attrs m)) (match dget m node with Some (VDict d) => d | _ => [] end) vrfs) l
    end) mods ifs.
