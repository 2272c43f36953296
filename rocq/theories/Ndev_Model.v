(* Model of netsim/augment/nodes.py: provider, device and image of a node, device data copied into nodes, main loopback interface;
   and of netsim/modules/__init__.py: modules of nodes and global module parameters. Definitions only. *)
From Coq Require Import String Ascii ZArith Bool List.
From Verif Require Import Base Box_Model Clone_Model Dev_Model Sort_Model Mod_Model.
Import ListNotations.
Local Open Scope string_scope.
Local Open Scope list_scope.

Inductive nerr :=
| EUnknownProvider | EIncompatible | ENoDevice | EBadDevice | EBadImage | ENoImage.

(* reading a missing key of a Box yields an empty Box *)
Definition rd (k : string) (d : dict val) : val := match dget k d with Some v => v | None => empty_box end.
Definition rdd (k : string) (d : dict val) : dict val := entries (rd k d).

(* nodes.py:274-297 validate_node_provider: the node, providers used beside the topology provider, error.
   [tp]: topology.provider, [provs]: defaults.providers *)
Definition validate_node_provider (tp : string) (provs : dict val) (n : dict val) (used : dict bool)
  : dict val * dict bool * option nerr :=
  match dget "provider" n with
  | None => (n, used, None)
  | Some v =>
      if veqb v (VStr tp) then (dpop "provider" n, used, None)
      else match v with
           | VStr p =>
               if negb (dmem p provs) then (n, used, Some EUnknownProvider)
               else if negb (dmem p (rdd tp provs)) then (n, used, Some EIncompatible)
               else (n, dset p true used, None)
           | _ => (n, used, Some EUnknownProvider)
           end
  end.

(* nodes.py:211-219 find_node_device: the part using device data [dd], a dictionary *)
Definition force_provider (tp : string) (dd n : dict val) : dict val :=
  match dget "provider" dd with
  | Some v => if veqb v (VStr tp) then n else dset "provider" v n
  | None => n
  end.
Definition device_module (dd n : dict val) : dict val :=
  match lookup ["node"; "module"] (VDict dd) with
  | Some m => if truthy m && negb (dmem "module" n) then dset "module" m n else n
  | None => n
  end.

(* nodes.py:191-224 find_node_device: the node, defaults.attributes, error. [def]: defaults.device, [devs]: defaults.devices (the
   list of known devices is the list of its keys); device data are dictionaries *)
Definition find_node_device (tp : string) (def : option val) (devs : dict val) (n : dict val) (attrs : val)
  : dict val * val * option nerr :=
  let n1 := if dmem "device" n then n else dset "device" (match def with Some v => v | None => empty_box end) n in
  let dv := rd "device" n1 in
  if negb (truthy dv) then (n1, attrs, Some ENoDevice)
  else match dv with
       | VStr s =>
           if dmem s devs then
             let dd := rdd s devs in
             (device_module dd (force_provider tp dd n1),
              match dget "attributes" dd with Some a => merge attrs a | None => attrs end, None)
           else (n1, attrs, Some EBadDevice)
       | _ => (n1, attrs, Some EBadDevice)
       end.

(* devices.py:108-109 get_provider; provider names are strings *)
Definition node_provider (defp : string) (n : dict val) : string := match dget "provider" n with Some (VStr p) => p | _ => defp end.

(* nodes.py:234-239 find_node_image: provider data of the node; both are dictionaries *)
Definition provider_node_data (p : string) (pdata n : dict val) : dict val :=
  match dget "node" pdata with Some d => dset p (merge d (rd p n)) n | None => n end.

Definition image_value (v : val) (n : dict val) : dict val * option nerr :=
  match v with VStr s => (dset "box" (VStr s) n, None) | _ => (n, Some EBadImage) end.

(* nodes.py:231-268 find_node_image; [defp]: defaults.provider. Reading n.box creates the attribute. An image in device data is not
   None *)
Definition find_node_image (defp : string) (devs : dict val) (n : dict val) : dict val * option nerr :=
  let p := node_provider defp n in
  let dd := match dget "device" n with Some (VStr s) => rdd s devs | _ => [] end in
  let pdata := rdd p dd in
  let n1 := provider_node_data p pdata n in
  if truthy (rd "box" n1) then (n1, None)
  else
    let n2 := dset "box" (rd "box" n1) n1 in
    match dget "image" n2 with
    | Some v => (dpop "image" (dset "box" v n2), None)
    | None =>
        match dget "image" dd with
        | Some v => image_value v n2
        | None => match dget "image" pdata with
                  | Some v => image_value v n2
                  | None => (n2, Some ENoImage)
                  end
        end
    end.

Record nstate := mk_ns { ns_used : dict bool; ns_attrs : val }.

(* nodes.py:310-318 augment_node_provider_data: a node *)
Definition augment_one (tp defp : string) (provs : dict val) (def : option val) (devs : dict val) (n : dict val) (s : nstate)
  : dict val * nstate * option nerr :=
  match validate_node_provider tp provs n (ns_used s) with
  | (n1, used, Some e) => (n1, mk_ns used (ns_attrs s), Some e)
  | (n1, used, None) =>
      match find_node_device tp def devs n1 (ns_attrs s) with
      | (n2, attrs, Some e) => (n2, mk_ns used attrs, Some e)
      | (n2, attrs, None) => let (n3, e) := find_node_image defp devs n2 in (n3, mk_ns used attrs, e)
      end
  end.

(* nodes.py:306-318 augment_node_provider_data; errors with names of nodes *)
Fixpoint augment_nodes (tp defp : string) (provs : dict val) (def : option val) (devs : dict val) (nodes : dict (dict val)) (s : nstate)
  : dict (dict val) * nstate * list (string * nerr) :=
  match nodes with
  | [] => ([], s, [])
  | (name, n) :: r =>
      let '(n', s', e) := augment_one tp defp provs def devs n s in
      let '(r', s'', es) := augment_nodes tp defp provs def devs r s' in
      ((name, n') :: r', s'', match e with Some x => (name, x) :: es | None => es end)
  end.

(* nodes.py:349-351 augment_node_device_data, 354-356: copy an attribute the node does not have *)
Definition copy_new (src n : dict val) (k : string) : dict val :=
  match dget k src with Some v => if dmem k n then n else dset k v n | None => n end.

(* nodes.py:358-362 augment_node_device_data: daemons *)
Definition daemon_data (dev n : dict val) : dict val :=
  match dget "daemon" dev with
  | Some v => if truthy v then
                let n1 := dset "_daemon_parent" (rd "daemon_parent" dev) (dset "_daemon" (VBool true) n) in
                match dget "daemon_config" dev with Some c => dset "_daemon_config" c n1 | None => n1 end
              else n
  | None => n
  end.

(* nodes.py:345-368 augment_node_device_data; the flag - an error. [attrs]: names of node attributes, [dd]: device data *)
Definition augment_node_device_data (attrs : list string) (provider : string) (providers : list string) (dd : dict val) (n : dict val)
  : dict val * bool :=
  let dev := entries (get_consolidated_device_data (VDict dd) provider providers) in
  let n1 := fold_left (copy_new dev) attrs n in
  let nd := rdd "node" dd in
  let n2 := fold_left (copy_new nd) (dkeys nd) n1 in
  let n3 := daemon_data dev n2 in
  match dget "_daemon_config" n3 with
  | Some v => if is_dict v then (n3, false) else (dpop "_daemon_config" n3, true)
  | None => (n3, false)
  end.

(* values of an address pool: True, False, a network (its text, prefix length and first address), anything else (its text) *)
Inductive pfx := PTrue | PFalse | PNet (text : string) (len : Z) (first : string) | POther (text : string).

(* nodes.py:391-396 loopback_interface *)
Definition loop_addr (af : string) (p : pfx) : string :=
  match p with
  | PNet t len first => if String.eqb af "ipv6" then (if Z.eqb len 128 then t else first) else t
  | POther t => t
  | _ => ""
  end.

Inductive lerr := EUnnumbered | EAddress (af : string).

(* nodes.py:383-397 loopback_interface: an element of the pool; the loopback interface, node address families, errors. Reading
   n.loopback[af] creates the attribute *)
Definition loop_step (st : dict val * dict bool * list lerr) (x : string * pfx) : dict val * dict bool * list lerr :=
  let '(lb, af, es) := st in
  match snd x with
  | PTrue => (lb, af, es ++ [EUnnumbered])
  | p =>
      if truthy (rd (fst x) lb) then (lb, af, es)
      else match p with
           | PFalse => (dset (fst x) (rd (fst x) lb) lb, af, es)
           | _ => (dset (fst x) (VStr (loop_addr (fst x) p)) lb, dset (fst x) true af, es)
           end
  end.

(* nodes.py:399-404 loopback_interface *)
Definition not_text (lb : dict val) (af : string) : list lerr :=
  match dget af lb with Some (VStr _) => [] | Some _ => [EAddress af] | None => [] end.

(* nodes.py:373-404 loopback_interface. [ifname]: name of the loopback interface, [pools]: the prefixes for a node in a pool, [lb]:
   n.loopback. The check of host bits (406) is not included *)
Definition loopback_interface (ifname : option string) (pools : string -> dict pfx) (lb : dict val)
  : dict val * dict bool * list lerr :=
  let lb1 := dset "ifname" (VStr (match ifname with Some s => if String.eqb s "" then "Loopback" else s | None => "Loopback" end))
            (dset "ifindex" (VInt 0)
            (dset "virtual_interface" (VBool true)
            (dset "neighbors" (VList []) (dset "type" (VStr "loopback") lb)))) in
  let pool := match dget "pool" lb1 with Some (VStr p) => p | _ => "loopback" end in
  let '(lb2, af, es) := fold_left loop_step (pools pool) (lb1, [], []) in
  (lb2, af, es ++ flat_map (not_text lb2) ["ipv4"; "ipv6"]).

(* modules/__init__.py:145-165 augment_node_module: a node. [g]: topology.module. The check of module names is not included *)
Definition augment_node_module (g : list string) (provider : string) (dd n : dict val) : dict val :=
  if dmem "module" n then n
  else
    let daemon := match get_device_attribute (VDict dd) provider "daemon" with Some v => truthy v | None => false end in
    let host v := match v with Some (VStr s) => String.eqb s "host" | _ => false end in
    let is_host := host (get_device_attribute (VDict dd) provider "role") || host (dget "role" n) in
    match g with
    | [] => n
    | _ => if negb is_host || daemon then dset "module" (VList (map VStr g)) n else n
    end.

Inductive merr := EUnknownModule (node m : string) | EUnsupported (node m : string) | ENoDefaults (m : string).

(* python: x in v *)
Definition val_in (x : string) (v : val) : bool :=
  match v with VList l => existsb (veqb (VStr x)) l | VDict d => dmem x d | _ => false end.

(* modules/__init__.py:170-186 check_supported_node_devices: a node with device [dev] and modules [mods] *)
Definition check_supported (defaults : dict val) (name dev : string) (mods : list string) : list merr :=
  flat_map (fun m =>
    match dget m defaults with
    | None => [EUnknownModule name m]
    | Some d => match dget "supported_on" (entries d) with
                | Some s => if val_in dev s then [] else [EUnsupported name m]
                | None => []
                end
    end) mods.

(* modules/__init__.py:276-296 merge_global_module_params: a module; module defaults and topology settings are dictionaries *)
Definition merge_global_one (defaults : dict val) (st : dict val * list merr) (m : string) : dict val * list merr :=
  let '(topo, es) := st in
  match dget m defaults with
  | None => (topo, es ++ [ENoDefaults m])
  | Some d =>
      let c := propagated d d in
      if truthy c then (dset m (merge c (rd m topo)) topo, es) else (topo, es)
  end.

(* modules/__init__.py:273-296 merge_global_module_params; [topo]: the topology *)
Definition merge_global_module_params (defaults topo : dict val) (mods : list string) : dict val * list merr :=
  fold_left (merge_global_one defaults) mods (topo, []).

(* modules/__init__.py:369-379 reorder_node_modules: topology modules and modules of nodes, in lab order; [extra]: _extra_module *)
Fixpoint reorder_nodes (known : string -> bool) (requires after : string -> list string) (nodes : dict (option (list string)))
  : result sort_error (dict (option (list string))) :=
  match nodes with
  | [] => Ok []
  | (name, None) :: r =>
      match reorder_nodes known requires after r with Ok r' => Ok ((name, None) :: r') | Err e => Err e end
  | (name, Some l) :: r =>
      match sort_module_list l known requires after with
      | Err e => Err e
      | Ok l' => match reorder_nodes known requires after r with Ok r' => Ok ((name, Some l') :: r') | Err e => Err e end
      end
  end.
Definition reorder_node_modules (known : string -> bool) (requires after : string -> list string) (mods extra : list string)
           (nodes : dict (option (list string))) : result sort_error (list string * dict (option (list string))) :=
  let l := mods ++ filter (fun m => negb (memS m mods)) extra in
  match (match l with [] => Ok [] | _ => sort_module_list l known requires after end) with
  | Err e => Err e
  | Ok l' => match reorder_nodes known requires after nodes with Ok r => Ok (l', r) | Err e => Err e end
  end.
