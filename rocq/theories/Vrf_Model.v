(* Model of VRF identifiers, route distinguishers, route targets and VRF indices
   (netsim/modules/vrf.py). Definitions only.
   Simplifications: VRF data is reduced to id, rd, import and export; the data types have been
   checked by validation (rd: integer, string or null; import/export: lists); AS numbers are the
   strings produced by f'{asn}'; VRF names used in route targets contain no dots (a dotted name
   would be looked up as a path); group data is already merged (export_group_node_data); VRF
   links, loopbacks and address families are left out. *)
From Coq Require Import String Ascii ZArith Bool List Decimal DecimalString.
From Verif Require Import Base IdAlloc_Model Text_Model Types_Model.
Import ListNotations.
Open Scope Z_scope.

(* vdata.rd when the key is present *)
Inductive rdv := RdNone | RdInt (n : Z) | RdStr (s : string).

(* a member of vdata.import or vdata.export; RtNone is None and RtBox an empty Box (both only
   appear when the list is made from an RD that is None or missing) *)
Inductive rtv := RtInt (n : Z) | RtStr (s : string) | RtNone | RtBox.

Record vrf := mk_vrf {
  vr_id : option Z;
  vr_rd : option rdv;
  vr_import : option (list rtv);
  vr_export : option (list rtv)
}.

Definition empty_vrf : vrf := mk_vrf None None None None.

Record rnode := mk_rnode {
  rn_module : bool;                    (* 'vrf' in node.module *)
  rn_bgp_as : option string;           (* node.bgp.as *)
  rn_vrf_as : option string;           (* node.vrf.as *)
  rn_vrfs : option (dict vrf);         (* node.vrfs *)
  rn_vlan_vrfs : list string           (* the VRF names not in node.vrfs used in node.vlans, in the
                                          order in which the set at vrf.py:448 is iterated *)
}.

Record rtopo := mk_rtopo {
  rt_reserved : list string;           (* topology.defaults.vrf.attributes.reserved *)
  rt_bgp_as : option string;           (* topology.bgp.as *)
  rt_vrf_as : option string;           (* topology.vrf.as *)
  rt_vrfs : option (dict vrf);         (* topology.vrfs *)
  rt_nodes : dict rnode
}.

(* errors reported with log.error *)
Inductive vrf_report :=
| RepReserved (v : string)             (* vrf.py:118-126 *)
| RepIntRd (v : string)                (* vrf.py:133-137 *)
| RepBadRd (v : string)                (* vrf.py:140-143 *)
| RepNoAsn (v : string)                (* vrf.py:212-216 *)
| RepRtNoAsn (v : string)              (* vrf.py:247-250 *)
| RepRtType (v : string)               (* vrf.py:253-257 *)
| RepRtFormat (v : string)             (* vrf.py:260-264 *)
| RepUnknownVrf (v : string).          (* vrf.py:174-179 *)

(* errors that stop the program *)
Inductive vrf_fatal :=
| FatalId (e : id_error)               (* get_next_id *)
| FatalNoRd (v : string)               (* vrf.py:185-187 *)
| FatalExit (l : list vrf_report)      (* log.exit_on_error *)
| FatalFuel.                           (* artefact of the model, shown unreachable *)

(* the vrf_id and vrf_rd identifier sets. Simplification: line 93 adds the integer VRF id to the
   set of RDs (id_set is the vrf_rd set); only strings are looked up in that set, so the integers
   are left out. *)
Definition vrf_state := (idvar * list string)%type.

(* f'{n}' for an integer *)
Definition zdec (n : Z) : string := NilZero.string_of_int (Z.to_int n).

(* f'{asn}:{n}' *)
Definition fmt_rd (asn : string) (n : Z) : string := (asn ++ String ":" (zdec n))%string.

(* Python "a or b" on optional strings *)
Definition or_asn (a b : option string) : option string :=
  match a with
  | Some EmptyString => b
  | None => b
  | Some s => Some s
  end.

(* vrf.py:57-62 get_rd_as_number followed by the tests for a false value at lines 133, 212, 247 *)
Definition get_rd_as_number (obj_bgp obj_vrf : option string) (t : rtopo) : option string :=
  or_asn obj_bgp (or_asn obj_vrf (or_asn (rt_bgp_as t) (or_asn (rt_vrf_as t) None))).

Definition topo_asn (t : rtopo) : option string := get_rd_as_number (rt_bgp_as t) (rt_vrf_as t) t.
Definition node_asn (t : rtopo) (n : rnode) : option string := get_rd_as_number (rn_bgp_as n) (rn_vrf_as n) t.

(* vrf.py:68-81 parse_rdrt_value: is the result different from None? *)
Definition parse_rdrt_ok (s : string) : bool :=
  match split ":" s with
  | [a; v] =>
      match py_int v with
      | None => false
      | Some _ =>
          match py_int a with
          | Some _ => true
          | None => match parse_ipv4 a with Some _ => true | None => false end
          end
      end
  | _ => false
  end.

(* vrf.py:83-94 get_next_vrf_id; the loop skips at most as many ids as there are RDs *)
Fixpoint next_vrf_loop (fuel : nat) (asn : string) (st : vrf_state) : result vrf_fatal ((Z * string) * vrf_state) :=
  match fuel with
  | O => Err FatalFuel
  | S f =>
      match get_next_id (fst st) with
      | Err e => Err (FatalId e)
      | Ok (i, v') =>
          if memS (fmt_rd asn i) (snd st) then next_vrf_loop f asn (v', snd st)
          else Ok ((i, fmt_rd asn i), (v', fmt_rd asn i :: snd st))
      end
  end.

Definition get_next_vrf_id (asn : string) (st : vrf_state) : result vrf_fatal ((Z * string) * vrf_state) :=
  next_vrf_loop (S (length (snd st))) asn st.

(* vrf.py:106-143 normalize_vrf_dict: the loop over VRFs; a missing AS number ends it *)
Fixpoint normalize_vrf_dict (reserved : list string) (asn : option string) (d : dict vrf)
  : dict vrf * list vrf_report :=
  match d with
  | [] => ([], [])
  | (k, x) :: r =>
      let e1 := if memS k reserved then [RepReserved k] else [] in
      match vr_rd x with
      | Some (RdInt n) =>
          match asn with
          | None => ((k, x) :: r, e1 ++ [RepIntRd k])
          | Some a =>
              let (r', e) := normalize_vrf_dict reserved asn r in
              ((k, mk_vrf (vr_id x) (Some (RdStr (fmt_rd a n))) (vr_import x) (vr_export x)) :: r', e1 ++ e)
          end
      | Some (RdStr s) =>
          let (r', e) := normalize_vrf_dict reserved asn r in
          ((k, x) :: r', e1 ++ (if parse_rdrt_ok s then [] else [RepBadRd k]) ++ e)
      | _ =>
          let (r', e) := normalize_vrf_dict reserved asn r in ((k, x) :: r', e1 ++ e)
      end
  end.

(* the test for a missing vrfs dictionary at lines 107-108 *)
Definition normalize_opt (reserved : list string) (asn : option string) (o : option (dict vrf))
  : option (dict vrf) * list vrf_report :=
  match o with
  | None => (None, [])
  | Some d => let (d', e) := normalize_vrf_dict reserved asn d in (Some d', e)
  end.

Definition set_rn_vrfs (n : rnode) (o : option (dict vrf)) : rnode :=
  mk_rnode (rn_module n) (rn_bgp_as n) (rn_vrf_as n) o (rn_vlan_vrfs n).

Definition set_topo (t : rtopo) (o : option (dict vrf)) (ns : dict rnode) : rtopo :=
  mk_rtopo (rt_reserved t) (rt_bgp_as t) (rt_vrf_as t) o ns.

Fixpoint normalize_nodes (t : rtopo) (ns : dict rnode) : dict rnode * list vrf_report :=
  match ns with
  | [] => ([], [])
  | (k, n) :: r =>
      let (o, e) := normalize_opt (rt_reserved t) (node_asn t n) (rn_vrfs n) in
      let (r', e') := normalize_nodes t r in
      ((k, set_rn_vrfs n o) :: r', e ++ e')
  end.

(* vrf.py:145-149 normalize_vrf_ids *)
Definition normalize_vrf_ids (t : rtopo) : rtopo * list vrf_report :=
  let (o, e) := normalize_opt (rt_reserved t) (topo_asn t) (rt_vrfs t) in
  let (ns, e') := normalize_nodes t (rt_nodes t) in
  (set_topo t o ns, e ++ e').

(* vrf.py:37-41 init_vrf_static_ids *)
Definition init_vrf_static_ids : vrf_state :=
  (set_id_counter 1 4095 (create_id_set empty_idvar), []).

(* _dataplane.py:39-53 build_id_set for id and rd: integers and strings (an integer RD cannot be
   confused with the strings looked up and is left out) *)
Definition vrf_id_set (d : dict vrf) : list Z :=
  flat_map (fun kv : string * vrf => match vr_id (snd kv) with Some i => [i] | None => [] end) d.
Definition vrf_rd_set (d : dict vrf) : list string :=
  flat_map (fun kv : string * vrf => match vr_rd (snd kv) with Some (RdStr s) => [s] | _ => [] end) d.

Definition opt_vrfs (o : option (dict vrf)) : dict vrf := match o with Some d => d | None => [] end.

Definition extend_static (d : dict vrf) (st : vrf_state) : vrf_state :=
  (extend_id_set (vrf_id_set d) (fst st), vrf_rd_set d ++ snd st).

(* vrf.py:46-52 populate_vrf_static_ids *)
Definition populate_vrf_static_ids (t : rtopo) (st : vrf_state) : vrf_state :=
  fold_left (fun s (kn : string * rnode) => extend_static (opt_vrfs (rn_vrfs (snd kn))) s)
    (rt_nodes t) (extend_static (opt_vrfs (rt_vrfs t)) st).

(* vrf.py:151-154 vrf_needs_id *)
Definition vrf_needs_id (x : vrf) : bool :=
  match vr_rd x, vr_id x with Some _, Some _ => false | _, _ => true end.

(* vrf.py:156-161 set_vrf_auto_id *)
Definition set_vrf_auto_id (x : vrf) (value : Z * string) : vrf :=
  mk_vrf (match vr_id x with None => Some (fst value) | i => i end)
         (match vr_rd x with None => Some (RdStr (snd value)) | r => r end)
         (vr_import x) (vr_export x).

(* vrf.py:194-217 set_vrf_ids; [gl] is topology.vrfs when obj is a node and empty when obj is the
   topology. Simplification: an id or rd missing in the global VRF (after an error) is copied as
   missing, not as an empty Box. *)
Fixpoint set_vrf_ids (gl : dict vrf) (asn : option string) (d : dict vrf) (st : vrf_state)
  : result vrf_fatal (dict vrf * vrf_state * list vrf_report) :=
  match d with
  | [] => Ok ([], st, [])
  | (k, x) :: r =>
      let continue (y : vrf) (s : vrf_state) :=
        match set_vrf_ids gl asn r s with
        | Err e => Err e
        | Ok (r', s', e) => Ok ((k, y) :: r', s', e)
        end in
      if negb (vrf_needs_id x) then continue x st
      else match dget k gl with
      | Some g => continue (mk_vrf (vr_id g) (vr_rd g) (vr_import x) (vr_export x)) st
      | None =>
          match asn with
          | None => Ok ((k, x) :: r, st, [RepNoAsn k])
          | Some a =>
              match get_next_vrf_id a st with
              | Err e => Err e
              | Ok (value, st') => continue (set_vrf_auto_id x value) st'
              end
          end
      end
  end.

(* [ vdata.rd ] at line 238 *)
Definition rd_as_rt (o : option rdv) : rtv :=
  match o with
  | Some (RdStr s) => RtStr s
  | Some (RdInt n) => RtInt n
  | Some RdNone => RtNone
  | None => RtBox
  end.

(* vrf.py:169-189 get_vrf_id. The dictionaries found are not empty at this point (they have at
   least an id or are reported as fatal), so the "or" selects the global VRF if there is one. *)
Definition get_vrf_id (name : string) (gl own : dict vrf) : result vrf_fatal (rdv * list vrf_report) :=
  match (match dget name gl with Some g => Some g | None => dget name own end) with
  | None => Ok (RdNone, [RepUnknownVrf name])
  | Some x =>
      match vr_rd x with
      | None => Err (FatalNoRd name)
      | Some r => Ok (r, [])
      end
  end.

Definition rd_value (r : rdv) : list rtv :=
  match r with
  | RdNone => []                       (* lines 267-268 *)
  | RdInt n => [RtInt n]
  | RdStr s => [RtStr s]
  end.

(* vrf.py:244-270 the loop over route targets *)
Fixpoint expand_rts (vname : string) (asn : option string) (gl own : dict vrf) (l : list rtv)
  : result vrf_fatal (list rtv * list vrf_report) :=
  match l with
  | [] => Ok ([], [])
  | v :: r =>
      match (match v with
             | RtInt n =>
                 match asn with
                 | None => Ok ([], [RepRtNoAsn vname])
                 | Some a => Ok ([RtStr (fmt_rd a n)], [])
                 end
             | RtStr s =>
                 if existsb (Ascii.eqb ":") (list_ascii_of_string s) then
                   if parse_rdrt_ok s then Ok ([RtStr s], []) else Ok ([], [RepRtFormat vname])
                 else match get_vrf_id s gl own with
                      | Err e => Err e
                      | Ok (rd, e) => Ok (rd_value rd, e)
                      end
             | _ => Ok ([], [RepRtType vname])
             end) with
      | Err e => Err e
      | Ok (w, e) =>
          match expand_rts vname asn gl own r with
          | Err e' => Err e'
          | Ok (r', e') => Ok (w ++ r', e ++ e')
          end
      end
  end.

(* vrf.py:233-272 one route target list; [parent] is the list of the global VRF when obj is a node *)
Definition one_rt_list (vname : string) (asn : option string) (gl own : dict vrf) (rd : option rdv)
  (parent : option (option (list rtv))) (o : option (list rtv))
  : result vrf_fatal (option (list rtv) * list vrf_report) :=
  match o with
  | None =>
      match parent with
      | Some p => Ok (p, [])
      | None => Ok (Some [rd_as_rt rd], [])
      end
  | Some l =>
      match expand_rts vname asn gl own l with
      | Err e => Err e
      | Ok (l', e) => Ok (Some l', e)
      end
  end.

(* vrf.py:222-272 set_import_export_rt. [gl]: topology.vrfs, [own]: obj.vrfs, both only used for
   the RDs which do not change in this loop; [par]: topology.vrfs when obj is a node *)
Fixpoint set_import_export_rt (par gl own : dict vrf) (asn : option string) (d : dict vrf)
  : result vrf_fatal (dict vrf * list vrf_report) :=
  match d with
  | [] => Ok ([], [])
  | (k, x) :: r =>
      match one_rt_list k asn gl own (vr_rd x) (option_map vr_import (dget k par)) (vr_import x) with
      | Err e => Err e
      | Ok (im, e1) =>
          match one_rt_list k asn gl own (vr_rd x) (option_map vr_export (dget k par)) (vr_export x) with
          | Err e => Err e
          | Ok (ex, e2) =>
              match set_import_export_rt par gl own asn r with
              | Err e => Err e
              | Ok (r', e3) => Ok ((k, mk_vrf (vr_id x) (vr_rd x) im ex) :: r', e1 ++ e2 ++ e3)
              end
          end
      end
  end.

(* vrf.py:422-437 VRF.module_pre_transform *)
Definition module_pre_transform (t : rtopo) : result vrf_fatal (rtopo * vrf_state * list vrf_report) :=
  let (t1, e) := normalize_vrf_ids t in
  match rt_vrfs t1 with
  | None => Ok (t1, init_vrf_static_ids, e)
  | Some g =>
      match e with
      | _ :: _ => Err (FatalExit e)
      | [] =>
          match set_vrf_ids [] (topo_asn t1) g (populate_vrf_static_ids t1 init_vrf_static_ids) with
          | Err e => Err e
          | Ok (g1, st1, e1) =>
              match set_import_export_rt [] g1 g1 (topo_asn t1) g1 with
              | Err e => Err e
              | Ok (g2, e2) => Ok (set_topo t1 (Some g2) (rt_nodes t1), st1, e1 ++ e2)
              end
          end
      end
  end.

(* vrf.py:441-450: the node VRFs after the VRFs used by node VLANs were added; None: return *)
Definition pull_vlan_vrfs (n : rnode) : option (dict vrf) :=
  match rn_vrfs n, rn_vlan_vrfs n with
  | None, [] => None
  | None, l => Some (fold_left (fun d k => if dmem k d then d else dset k empty_vrf d) l [])
  | Some d, l => Some (fold_left (fun d k => if dmem k d then d else dset k empty_vrf d) l d)
  end.

(* vrf.py:440-453 VRF.node_pre_transform *)
Definition node_pre_transform (t : rtopo) (n : rnode) (st : vrf_state)
  : result vrf_fatal (rnode * vrf_state * list vrf_report) :=
  match pull_vlan_vrfs n with
  | None => Ok (n, st, [])
  | Some d =>
      let gl := opt_vrfs (rt_vrfs t) in
      match set_vrf_ids gl (node_asn t n) d st with
      | Err e => Err e
      | Ok (d1, st1, e1) =>
          match set_import_export_rt gl gl d1 (node_asn t n) d1 with
          | Err e => Err e
          | Ok (d2, e2) => Ok (set_rn_vrfs n (Some d2), st1, e1 ++ e2)
          end
      end
  end.

(* modules/__init__.py:78 node_transform("pre_transform"): nodes using the VRF module *)
Fixpoint nodes_pre_transform (t : rtopo) (ns : dict rnode) (st : vrf_state)
  : result vrf_fatal (dict rnode * vrf_state * list vrf_report) :=
  match ns with
  | [] => Ok ([], st, [])
  | (k, n) :: r =>
      match (if rn_module n then node_pre_transform t n st else Ok (n, st, [])) with
      | Err e => Err e
      | Ok (n', st1, e1) =>
          match nodes_pre_transform t r st1 with
          | Err e => Err e
          | Ok (r', st2, e2) => Ok ((k, n') :: r', st2, e1 ++ e2)
          end
      end
  end.

Definition vrf_pre_transform (t : rtopo) : result vrf_fatal (rtopo * list vrf_report) :=
  match module_pre_transform t with
  | Err e => Err e
  | Ok (t1, st, e1) =>
      match nodes_pre_transform t1 (rt_nodes t1) st with
      | Err e => Err e
      | Ok (ns, _, e2) => Ok (set_topo t1 (rt_vrfs t1) ns, e1 ++ e2)
      end
  end.

(* ---- VRF indices ---- *)

(* vrf.py:542: insertion into a list sorted by id, after the elements with the same id; the
   sorted() function of Python is stable *)
Fixpoint insert_by_id (x : string * Z) (l : list (string * Z)) : list (string * Z) :=
  match l with
  | [] => [x]
  | y :: r => if snd x <? snd y then x :: y :: r else y :: insert_by_id x r
  end.

Definition sort_by_id (l : list (string * Z)) : list (string * Z) :=
  fold_left (fun acc x => insert_by_id x acc) l [].

Fixpoint number_from (i : Z) (l : list (string * Z)) : dict Z :=
  match l with
  | [] => []
  | (k, _) :: r => (k, i) :: number_from (i + 1) r
  end.

(* vrf.py:530-544 the VRFs of a node (name and id) and the index given to each of them *)
Definition vrf_indices (l : list (string * Z)) : dict Z := number_from 100 (sort_by_id l).
