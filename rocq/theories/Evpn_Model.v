(* Model of EVPN transit VNIs, EVPN instances and route distinguishers and of the asymmetric IRB check
   (netsim/modules/evpn.py). Definitions only.
   Simplifications: the evpn attribute of a VRF is reduced to transit_vni, evi and rd; evpn.transport
   is vxlan (the MPLS transport only adds an error for VRFs with a transit VNI). *)
From Coq Require Import String Ascii ZArith Bool List.
From Verif Require Import Base Mod_Model Vrf_Model.
Import ListNotations.
Open Scope Z_scope.

(* vrf.evpn.transit_vni: missing, boolean, integer or the name of another VRF *)
Inductive transit := TNone | TBool (b : bool) | TInt (n : Z) | TStr (s : string).

Definition tvrfs := dict transit.

Inductive tv_error :=
| TvUsed (v : string)                  (* evpn.py:177-182: registered elsewhere *)
| TvDuplicate (v : string)             (* evpn.py:217-222 *)
| TvRange (v : string)                 (* must_be_int: outside of 4096..16777215 *)
| TvNoVrf (v : string)                 (* evpn.py:251-256 *)
| TvNoVni (v : string).                (* evpn.py:258-263 *)

(* evpn.py:170-183 register_static_transit_vni: the set of used VNIs and errors *)
Fixpoint register_static_transit_vni (d : tvrfs) (used : list Z) : list Z * list tv_error :=
  match d with
  | [] => (used, [])
  | (k, TInt n) :: r =>
      if memZ n used then
        let (u, e) := register_static_transit_vni r used in (u, TvUsed k :: e)
      else register_static_transit_vni r (n :: used)
  | _ :: r => register_static_transit_vni r used
  end.

(* evpn.py:188-192 get_next_vni: the first VNI after [start] not in the list; the loop runs at most
   |used|+1 times *)
Fixpoint next_vni_loop (fuel : nat) (start : Z) (used : list Z) : option Z :=
  match fuel with
  | O => None
  | S f => if memZ (start + 1) used then next_vni_loop f (start + 1) used else Some (start + 1)
  end.

Definition get_next_vni (start : Z) (used : list Z) : option Z := next_vni_loop (S (length used)) start used.

(* evpn.py:203-223 the first pass: list of static VNIs, errors *)
Fixpoint static_vnis (d : tvrfs) (l : list Z) : list Z * list tv_error :=
  match d with
  | [] => (l, [])
  | (k, TInt n) :: r =>
      if memZ n l then let (l', e) := static_vnis r l in (l', TvDuplicate k :: e)
      else static_vnis r (l ++ [n])
  | _ :: r => static_vnis r l
  end.

(* evpn.py:213-214 the number of VRFs with the attribute *)
Definition vni_count (d : tvrfs) : nat :=
  length (filter (fun kv : string * transit => match snd kv with TNone => false | _ => true end) d).

Definition vni_in_range (n : Z) : bool := (4096 <=? n) && (n <=? 16777215).

(* evpn.py:231-243 the second pass; None: out of fuel (shown unreachable). must_be_int replaces True
   by the start value, removes False and reports values out of range (returning None) *)
Fixpoint set_vnis (used : list Z) (d : tvrfs) (start : Z) : option (tvrfs * list tv_error) :=
  match d with
  | [] => Some ([], [])
  | (k, t) :: r =>
      let bump (n : Z) := if n =? start then get_next_vni start used else Some start in
      match (match t with
             | TStr s => Some (t, [], start)
             | TNone => Some (t, [], start)
             | TBool false => Some (TNone, [], start)
             | TBool true =>
                 if vni_in_range start
                 then match get_next_vni start used with Some s' => Some (TInt start, [], s') | None => None end
                 else Some (TInt start, [TvRange k], start)
             | TInt n =>
                 if vni_in_range n
                 then match bump n with Some s' => Some (t, [], s') | None => None end
                 else Some (t, [TvRange k], start)
             end) with
      | None => None
      | Some (t', e, start') =>
          match set_vnis used r start' with
          | None => None
          | Some (r', e') => Some ((k, t') :: r', e ++ e')
          end
      end
  end.

(* evpn.py:245-264 the third pass: references to other VRFs. [cur] is the whole dictionary with the
   changes made so far *)
Fixpoint share_vnis (todo : list string) (cur : tvrfs) : tvrfs * list tv_error :=
  match todo with
  | [] => (cur, [])
  | k :: r =>
      match dget k cur with
      | Some (TStr s) =>
          match dget s cur with
          | None => let (c, e) := share_vnis r cur in (c, TvNoVrf k :: e)
          | Some (TInt n) => share_vnis r (dset k (TInt n) cur)
          | Some _ => let (c, e) := share_vnis r cur in (c, TvNoVni k :: e)
          end
      | _ => share_vnis r cur
      end
  end.

(* evpn.py:194-264 vrf_transit_vni *)
Definition vrf_transit_vni (start : Z) (d : tvrfs) : option (tvrfs * list tv_error) :=
  let (used, e1) := static_vnis d [] in
  match vni_count d with
  | O => Some (d, e1)
  | _ =>
      match set_vnis used d start with
      | None => None
      | Some (d1, e2) =>
          let (d2, e3) := share_vnis (dkeys d1) d1 in
          Some (d2, e1 ++ e2 ++ e3)
      end
  end.

(* ---- asymmetric IRB ---- *)

(* a global VLAN: VRF and presence of EVPN data *)
Record avlan := mk_avlan { av_vrf : option string; av_evpn : bool }.

(* evpn.py:320-338 check_asym_vlan: the VLANs reported. Line 325 tests whether the VRF name is a
   substring of vl_data.vrf (the empty string if there is no VRF). *)
Definition check_asym_vlan (vrf_name : string) (vlans : dict avlan) (node_vlans : list string) : list string :=
  map fst (filter (fun kv : string * avlan =>
    contains vrf_name (match av_vrf (snd kv) with Some v => v | None => EmptyString end)
    && av_evpn (snd kv) && negb (memS (fst kv) node_vlans)) vlans).

(* ---- EVPN instances and route distinguishers ---- *)

(* a VLAN or a VRF of a node: id, evpn.evi and evpn.rd *)
Record einst := mk_einst { ei_id : Z; ei_evi : option Z; ei_rd : option string }.

(* evpn.py:73 and 266-272: the default EVI is the VLAN id or the VRF id. "evpn.evi or vlan.id" also
   replaces zero. *)
Definition vlan_evi (x : einst) : einst :=
  mk_einst (ei_id x) (match ei_evi x with Some 0 => Some (ei_id x) | None => Some (ei_id x) | e => e end) (ei_rd x).
Definition vrf_evi (x : einst) : einst :=
  mk_einst (ei_id x) (match ei_evi x with None => Some (ei_id x) | e => e end) (ei_rd x).

(* evpn.py:297-314 set_local_evpn_rd for one object: None is the error for a missing EVI *)
Definition local_rd (router_id : string) (x : einst) : option string :=
  match ei_evi x with
  | None => None
  | Some i => match ei_rd x with Some r => Some r | None => Some (fmt_rd router_id i) end
  end.

(* evpn.py:297-314 the RDs of all EVPN VLANs and VRFs of a node *)
Definition node_evpn_rds (router_id : string) (vlans vrfs : dict einst) : list ((bool * string) * option string) :=
  map (fun kv => ((false, fst kv), local_rd router_id (vlan_evi (snd kv)))) vlans ++
  map (fun kv => ((true, fst kv), local_rd router_id (vrf_evi (snd kv)))) vrfs.
