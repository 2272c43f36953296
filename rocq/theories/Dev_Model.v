(* Model of netsim/augment/devices.py: device attributes and device inheritance.
   Definitions only. *)
From Coq Require Import String Bool List.
From Verif Require Import Base Box_Model.
Import ListNotations.
Local Open Scope string_scope.
Local Open Scope list_scope.

(* dictionary of a Box; accessing a missing key of a Box yields an empty Box *)
Definition entries (v : val) : dict val := match v with VDict d => d | _ => [] end.

(* Box.pop(key,None) *)
Definition pop (k : string) (v : val) : val :=
  match v with VDict d => VDict (dpop k d) | _ => v end.

(* devices.py:24-48 get_device_attribute for a known device; [devdata] is
   defaults.devices[node.device]. None is python None / missing attribute. *)
Definition get_device_attribute (devdata : val) (provider attr : string) : option val :=
  let pvalue := match dget provider (entries devdata) with
                | Some pd => dget attr (entries pd)
                | None => None
                end in
  let value := dget attr (entries devdata) in
  match pvalue with
  | Some (VDict pd) =>
      match value with
      | Some (VDict dd) => Some (merge (VDict dd) (VDict pd))   (* value + pvalue *)
      | _ => Some (VDict pd)
      end
  | Some x => Some x
  | None => value
  end.

(* devices.py:90-102 get_consolidated_device_data; [providers] is defaults.providers.keys() *)
Definition get_consolidated_device_data (devdata : val) (provider : string) (providers : list string) : val :=
  let merged := merge devdata (match dget provider (entries devdata) with
                               | Some pd => pd
                               | None => empty_box
                               end) in
  fold_left (fun v p => pop p v) providers merged.

(* data/__init__.py:64-69 remove_null_values *)
Fixpoint remove_null (v : val) : val :=
  match v with
  | VDict d =>
      VDict ((fix go (d : list (string * val)) : list (string * val) :=
                match d with
                | [] => []
                | (k, x) :: r =>
                    match x with
                    | VNull => go r
                    | _ => (k, remove_null x) :: go r
                    end
                end) d)
  | _ => v
  end.

(* the parent attribute of a device; names are strings *)
Definition parent (v : val) : option string :=
  match dget "parent" (entries v) with Some (VStr p) => Some p | _ => None end.

Definition device (d : string) (devs : dict val) : val :=
  match dget d devs with Some v => v | None => empty_box end.

(* devices.py:118-131 process_child_device. None = out of fuel (shown unreachable). A missing
   parent device springs into existence as an empty Box. *)
Fixpoint process_child (fuel : nat) (d : string) (devs : dict val) : option (dict val) :=
  let devs := match dget d devs with Some _ => devs | None => dset d empty_box devs end in
  match parent (device d devs) with
  | None => Some devs
  | Some p =>
      match fuel with
      | O => None
      | S f =>
          match process_child f p (dset d (pop "parent" (device d devs)) devs) with
          | None => None
          | Some devs' =>
              let p_data := pop "template" (device p devs') in
              Some (dset d (remove_null (merge p_data (device d devs'))) devs')
          end
      end
  end.

(* devices.py:133-136 process_device_inheritance *)
Fixpoint process_all (fuel : nat) (names : list string) (devs : dict val) : option (dict val) :=
  match names with
  | [] => Some devs
  | d :: r => match process_child fuel d devs with
              | Some devs' => process_all fuel r devs'
              | None => None
              end
  end.

Definition process_device_inheritance (devs : dict val) : option (dict val) :=
  process_all (length devs) (dkeys devs) devs.
