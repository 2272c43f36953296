(* Model of netsim/augment/devices.py: daemons, modules supported by devices, checks of device definitions;
   and of netsim/augment/tools.py. Definitions only. *)
From Coq Require Import String Ascii ZArith Bool List.
From Verif Require Import Base Box_Model Clone_Model Dev_Model Mod_Model Ndev_Model.
Import ListNotations.
Local Open Scope string_scope.
Local Open Scope list_scope.

(* ---- modules supported by devices ---- *)

Inductive derr := EFatal (what : string) | ECrash (what : string).

(* devices.py:169-173 add a device to the list of devices supporting a module *)
Definition add_support (d : string) (md : dict val) : result derr (dict val) :=
  match dget "supported_on" md with
  | None => Ok (dset "supported_on" (VList [VStr d]) md)
  | Some (VList l) => Ok (if existsb (veqb (VStr d)) l then md else dset "supported_on" (VList (l ++ [VStr d])) md)
  | Some _ => Err (ECrash d)
  end.

(* devices.py:150-173 one feature [m] of device [d]; [f]: features of the device, [sets]: defaults *)
Definition support_step (d m : string) (f sets : dict val) : result derr (dict val * dict val) :=
  let fv := rd m f in
  let f1 := match fv with VNull | VBool true => dset m empty_box f | _ => f end in
  match dget m sets with
  | None => Ok (f1, sets)
  | Some (VDict md) =>
      if negb (dmem "attributes" md) then Ok (f1, sets)
      else match fv with
           | VBool false => Ok (dpop m f1, sets)
           | _ => match add_support d md with
                  | Ok md' => Ok (f1, dset m (VDict md') sets)
                  | Err e => Err e
                  end
           end
  | Some _ => Err (EFatal m)
  end.

(* devices.py:150 loop over features *)
Fixpoint support_features (d : string) (ms : list string) (f sets : dict val) : result derr (dict val * dict val) :=
  match ms with
  | [] => Ok (f, sets)
  | m :: r => match support_step d m f sets with
              | Ok (f', sets') => support_features d r f' sets'
              | Err e => Err e
              end
  end.

(* devices.py:141-173 build_module_support_lists. [names]: sorted names of devices. Devices are part of defaults, but there is no
   feature called devices: they are kept separately. *)
Fixpoint build_support (names : list string) (devs sets : dict val) : result derr (dict val * dict val) :=
  match names with
  | [] => Ok (devs, sets)
  | d :: r =>
      match dget "features" (rdd d devs) with
      | None => build_support r devs sets
      | Some fv =>
          match support_features d (dkeys (entries fv)) (entries fv) sets with
          | Ok (f', sets') => build_support r (dset d (VDict (dset "features" (VDict f') (rdd d devs))) devs) sets'
          | Err e => Err e
          end
      end
  end.

(* ---- daemons ---- *)

(* devices.py:192-199 one daemon; group_vars is a dictionary *)
Definition daemon_device (name : string) (dd : dict val) : dict val :=
  let d1 := dset "daemon" (VBool true) dd in
  let gv := rdd "group_vars" d1 in
  let d2 := if dmem "netlab_device_type" gv then d1
            else dset "group_vars" (VDict (dset "netlab_device_type" (VStr name) gv)) d1 in
  let d3 := if dmem "parent" d2 then d2 else dset "parent" (VStr "linux") d2 in
  dset "daemon_parent" (rd "parent" d3) d3.

(* devices.py:178-199 merge_daemons. None: defaults have no daemons *)
Definition merge_daemons (daemons : option (dict val)) (devs : dict val) : result derr (dict val) :=
  match daemons with
  | None => Ok devs
  | Some dm =>
      match find (fun kv : string * val => negb (is_dict (snd kv)) || dmem (fst kv) devs) dm with
      | Some kv => Err (EFatal (fst kv))
      | None => Ok (fold_left (fun ds kv => dset (fst kv) (VDict (daemon_device (fst kv) (entries (snd kv)))) ds) dm devs)
      end
  end.

(* ---- checks ---- *)

(* devices.py:221-231 templates are removed, devices without mandatory attributes are reported *)
Definition check_devices (devs : dict val) : dict val * list (string * string) :=
  let kept := filter (fun kv : string * val => negb (dmem "template" (entries (snd kv)))) devs in
  (kept, flat_map (fun kv : string * val =>
           map (pair (fst kv)) (filter (fun kw => negb (dmem kw (entries (snd kv)))) ["interface_name"; "description"])) kept).

(* devices.py:207-218 definitions that are not dictionaries *)
Definition bad_device (devs : dict val) : option string :=
  match find (fun kv : string * val => negb (is_dict (snd kv))) devs with Some kv => Some (fst kv) | None => None end.

(* ---- tools ---- *)

(* tools.py:45-53 copy_default_tools *)
Definition copy_default_tools (defs tools : dict val) : dict val :=
  fold_left (fun ts kv =>
    match dget "enabled" (entries (snd kv)) with
    | Some (VBool true) => if dmem (fst kv) ts then ts else dset (fst kv) (snd kv) ts
    | _ => ts
    end) defs tools.

Inductive terr := EBadTool (tool : string) | EBadRuntime (tool : string).

(* tools.py:18-27 validate_tool_attributes *)
Definition validate_tools (defs tools : dict val) : dict val * list terr :=
  (map (fun kv : string * val =>
     if dmem (fst kv) defs && negb (dmem "runtime" (entries (snd kv)))
     then (fst kv, VDict (dset "runtime" (VStr "docker") (entries (snd kv)))) else kv) tools,
   flat_map (fun kv : string * val => if dmem (fst kv) defs then [] else [EBadTool (fst kv)]) tools).

(* python "in" with a text on the left: None is the TypeError *)
Definition text_in (s : string) (v : val) : option bool :=
  match v with
  | VDict d => Some (dmem s d)
  | VList l => Some (existsb (veqb (VStr s)) l)
  | VStr t => Some (contains s t)
  | _ => None
  end.

(* tools.py:32-40 merge_tool_defaults, one tool: Some true is a valid runtime, None is a crash. A runtime that cannot be a key of a
   dictionary (also the empty Box read when there is no runtime) crashes; keys are texts without dots. *)
Definition runtime_ok (defs : dict val) (tool : string) (td : val) : option bool :=
  let data := entries (merge (rd tool defs) td) in
  match rd "runtime" data with
  | VStr s => let r := rd s data in if truthy r then text_in "up" r else Some false
  | VDict _ | VList _ => None
  | _ => Some false
  end.

Fixpoint check_runtimes (defs : dict val) (tools : list (string * val)) : result derr (list terr) :=
  match tools with
  | [] => Ok []
  | (k, td) :: r =>
      match runtime_ok defs k td with
      | None => Err (ECrash k)
      | Some ok => match check_runtimes defs r with
                   | Ok es => Ok ((if ok then [] else [EBadRuntime k]) ++ es)
                   | Err e => Err e
                   end
      end
  end.

(* tools.py:62-69 process_tools without pending errors *)
Definition process_tools (defs tools : dict val) : result derr (dict val * list terr) :=
  let (t2, e1) := validate_tools defs (copy_default_tools defs tools) in
  match check_runtimes defs t2 with
  | Ok e2 => Ok (t2, e1 ++ e2)
  | Err e => Err e
  end.
