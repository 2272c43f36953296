(* Model of device quirks: OSPF on Cumulus NVUE (netsim/devices/cumulus_nvue.py) and cEOS files (netsim/devices/eos.py).
   Definitions only. *)
From Coq Require Import String Ascii ZArith Bool List.
From Verif Require Import Base Box_Model Dev_Model Ndev_Model Mod_Model Dhcp_Model.
Import ListNotations.
Local Open Scope string_scope.
Local Open Scope list_scope.

(* ---- passive OSPF interfaces in VRFs ---- *)

(* cumulus_nvue.py:84 'passive' in i.ospf and i.ospf.passive is True *)
Definition is_passive (i : dict val) : bool :=
  match dget "passive" (rdd "ospf" i) with Some (VBool true) => true | _ => false end.

(* cumulus_nvue.py:84-86 one interface *)
Definition unpassive (i : dict val) : dict val :=
  if is_passive i then dset "ospf" (VDict (dset "passive" (VBool false) (rdd "ospf" i))) i else i.

(* cumulus_nvue.py:80-94 nvue_check_ospf_passive_in_vrf: OSPF interfaces of VRFs and the interfaces in the warning.
   Simplified: the interfaces are values (interfaces shared between lists are changed in all of them). *)
Definition passive_in_vrf (vrfs : dict (list (dict val))) : dict (list (dict val)) * list val :=
  (map (fun p => (fst p, map unpassive (snd p))) vrfs,
   flat_map (fun p => map (rd "ifname") (filter is_passive (snd p))) vrfs).

(* ---- OSPF on secondary loopbacks ---- *)

Inductive lnote :=
| LMerged (ifname : val)       (* warning: merged with the primary loopback *)
| LDiffers (ifname : val).     (* part of the error at the end *)

Section Loopbacks.
(* equality of two boxes *)
Variable same : val -> val -> bool.
Variable loop : dict val.      (* node.loopback *)

(* cumulus_nvue.py:105 *)
Definition mergeable (o : val) : bool :=
  same o (rd "ospf" loop) || same o (merge (rd "ospf" loop) (VDict [("passive", VBool false)])).

(* cumulus_nvue.py:101-113 one interface *)
Definition merge_loopback (i : dict val) : dict val * list lnote :=
  if negb (match dget "type" i with Some (VStr s) => String.eqb s "loopback" | _ => false end) || negb (dmem "ospf" i) then (i, [])
  else if dmem "ospf" loop && negb (dmem "vrf" i) && mergeable (rd "ospf" i)
  then (dpop "ospf" i, [LMerged (rd "ifname" i)])
  else (i, [LDiffers (rd "ifname" i)]).

(* cumulus_nvue.py:99-120 nvue_merge_ospf_loopbacks; there is an error when a note [LDiffers] exists *)
Definition merge_ospf_loopbacks (ifs : list (dict val)) : list (dict val) * list lnote :=
  (map (fun i => fst (merge_loopback i)) ifs, flat_map (fun i => snd (merge_loopback i)) ifs).
End Loopbacks.

(* ---- configuration file of cEOS containers ---- *)

Inductive cnote :=
| CNotCeos      (* warning: not a cEOS container *)
| CMapped.      (* the file is already mapped *)

(* containerlab attributes of a node; an absent list is different from an empty one *)
Record clab := mk_clab {
  cl_kind : string;
  cl_binds : option (list string);
  cl_templates : option (list string) }.

Definition mnt_config : string := "/mnt/flash/ceos-config".

Definition or_nil (l : option (list string)) : list string := match l with Some x => x | None => [] end.

(* eos.py:70-94 configure_ceos_attributes; [serial] and [mac]: truth of eos.serialnumber and eos.systemmacaddr;
   simplified: bind mappings are lists of texts *)
Definition configure_ceos (name : string) (serial mac : bool) (c : option clab) : option clab * list cnote :=
  if negb serial && negb mac then (c, [])
  else match c with
       | None => (c, [CNotCeos])
       | Some l =>
           if negb (String.eqb (cl_kind l) "ceos") then (c, [CNotCeos])
           else if existsb (contains mnt_config) (or_nil (cl_binds l)) then (c, [CMapped])
           else (Some (mk_clab (cl_kind l)
                   (Some (append_to_list ("clab_files/" ++ name ++ "/ceos-config:" ++ mnt_config)%string (or_nil (cl_binds l))))
                   (Some (append_to_list ("ceos-config:" ++ mnt_config)%string (or_nil (cl_templates l))))), [])
       end.
