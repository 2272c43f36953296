(* Model of netsim/extra/bgp.policy/plugin.py: BGP policy attributes of interfaces applied to EBGP neighbors. Definitions only.
   Device features are a function given from outside (see Sess_Model), import and validation of named routing policies
   are given from outside, too. Every error is reported every time (netlab reports some of them once per node).
   Values of attributes used in both directions are dictionaries (see defaults.yml and fix_bgp_bandwidth); netlab changes
   bandwidth and locpref on the interface, which makes no difference for the next neighbor on that interface. *)
From Coq Require Import String Ascii ZArith Bool List.
From Verif Require Import Base Box_Model Clone_Model.
From Verif Require Sess_Model Vrf_Model.
Import ListNotations.
Local Open Scope string_scope.
Local Open Scope list_scope.

(* an interface: its VRF and its bgp attributes *)
Record pintf := mk_pi { pi_vrf : option string; pi_bgp : dict val }.

(* directions of a compound attribute *)
Inductive pdir := DIn | DOut | DBoth.

Inductive perr :=
| PSupport (e : Sess_Model.serr)                           (* attribute not supported *)
| PKey (attr kw : string) | PValue (attr kw : string) (v : val)   (* restrictions of the device *)
| PRouting                                                 (* bgp.policy without the routing module *)
| PMix (ngb dir : string).                                 (* bgp.policy and attributes in the same direction *)

(* extra/bgp.policy/plugin.py:194-200 fix_bgp_bandwidth, called for bandwidth that is not empty *)
Definition fix_bandwidth (b : dict val) : dict val :=
  match dget "bandwidth" b with
  | Some v => if truthy v then match v with VDict _ => b | _ => dset "bandwidth" (VDict [("in", v)]) b end else b
  | None => b
  end.

(* extra/bgp.policy/plugin.py:307-308 post_transform: [lp] - the local preference to copy *)
Definition copy_locpref (lp : option val) (b : dict val) : dict val :=
  match lp with
  | None => b
  | Some v => match dget "locpref" b with
              | Some x => if truthy x then b else dset "locpref" v b
              | None => dset "locpref" v b
              end
  end.

(* extra/bgp.policy/plugin.py:291-292 post_transform: node-level local preference is copied unless the device has a default *)
Definition locpref_to_copy (default_locpref : option val) (node_bgp : dict val) : option val :=
  match default_locpref with
  | Some v => if truthy v then None else dget "locpref" node_bgp
  | None => dget "locpref" node_bgp
  end.

(* name of the type of a value *)
Definition type_name (v : val) : string :=
  match v with VNull => "NoneType" | VBool _ => "bool" | VInt _ => "int" | VStr _ => "str" | VList _ => "BoxList" | VDict _ => "Box" end.

(* extra/bgp.policy/plugin.py:106-150 check_attribute_direction; [f] - the feature of the device *)
Definition check_direction (f : option val) (a : string) (v : val) : list perr :=
  match v, f with
  | VDict kv, Some (VDict fd) =>
      flat_map (fun '(kw, x) =>
        match dget kw fd with
        | None => [PKey a kw]
        | Some (VBool _) => []
        | Some r => let l := match r with VList l => l | y => [y] end in
                    if existsb (veqb (VStr (type_name x))) l || existsb (veqb x) l then [] else [PValue a kw x]
        end) kv
  | _, _ => []
  end.

(* the neighbor, the attributes for the two policies, errors, anything found *)
Record pacc := mk_pa { pa_d : dict val; pa_in : dict val; pa_out : dict val; pa_err : list perr; pa_found : bool }.

(* extra/bgp.policy/plugin.py:78-98 append_policy_attribute *)
Definition append_attr (a : string) (dir : pdir) (v : val) (s : pacc) : pacc :=
  match dir with
  | DIn => mk_pa (pa_d s) (dset a v (pa_in s)) (pa_out s) (pa_err s) (pa_found s)
  | DOut => mk_pa (pa_d s) (pa_in s) (dset a v (pa_out s)) (pa_err s) (pa_found s)
  | DBoth => let kv := match v with VDict kv => kv | _ => [] end in
             mk_pa (pa_d s)
               (match dget "in" kv with Some x => dset a x (pa_in s) | None => pa_in s end)
               (match dget "out" kv with Some x => dset a x (pa_out s) | None => pa_out s end) (pa_err s) (pa_found s)
  end.

Section Policy.
Variable feat : string -> string -> option val.            (* features.bgp of a node *)
Variable provider : string.
Variable direct : list string.                             (* attributes of neighbors *)
Variable compound : list (string * pdir).                  (* attributes of policies *)
Variable bad : Z -> string -> bool.                        (* a named policy was imported and is not valid: neighbor, direction *)

(* extra/bgp.policy/plugin.py:278 post_transform *)
Definition attr_list : list string := direct ++ map fst compound.

(* extra/bgp.policy/plugin.py:166-188 apply_policy_attributes: one attribute *)
Definition apply_attr (node ngb : string) (b : dict val) (s : pacc) (a : string) : pacc :=
  match dget a b with
  | None => s
  | Some v =>
      if negb (truthy v) then s
      else match Sess_Model.check_support feat provider node a ngb with
           | [] =>
               let s1 := mk_pa (dset a v (pa_d s)) (pa_in s) (pa_out s) (pa_err s) true in
               match dget a compound with
               | None => s1
               | Some dir => append_attr a dir v
                   (mk_pa (pa_d s1) (pa_in s1) (pa_out s1) (pa_err s1 ++ check_direction (feat node a) a v) true)
               end
           | e => mk_pa (pa_d s) (pa_in s) (pa_out s) (pa_err s ++ map PSupport e) (pa_found s)
           end
  end.

(* extra/bgp.policy/plugin.py:205-207 bgp_policy_name, extra/bgp.policy/plugin.py:235 create_routing_policy *)
Definition map_name (i : pintf) (ngb : string) (idx : Z) (dir : string) : string :=
  ("bp-" ++ (match pi_vrf i with Some v => "vrf-" ++ v ++ "-" | None => "" end) ++ ngb ++ "-" ++ Vrf_Model.zdec idx ++ "-" ++ dir)%string.

(* a route map with one entry *)
Definition entry (set : dict val) : val := VList [VDict [("set", VDict set); ("sequence", VInt 10); ("action", VStr "permit")]].

(* extra/bgp.policy/plugin.py:245-267 apply_bgp_routing_policy: named policies of a neighbor *)
Definition named (routing : bool) (idx : Z) (b : dict val) : dict val :=
  match dget "policy" b with
  | Some (VDict p) =>
      if routing then
        flat_map (fun dir => match dget dir p with Some v => if bad idx dir then [] else [(dir, v)] | None => [] end) ["in"; "out"]
      else []
  | _ => []
  end.

Definition named_error (routing : bool) (b : dict val) : list perr :=
  match dget "policy" b with
  | Some (VDict p) => if negb routing && (dmem "in" p || dmem "out" p) then [PRouting] else []
  | _ => []
  end.

(* extra/bgp.policy/plugin.py:212-240 create_routing_policy: one direction: policies of the neighbor, new route maps, errors *)
Definition create_policy (i : pintf) (ngb : string) (idx : Z) (dir : string) (set : dict val) (pol : dict val)
  : dict val * list (string * val) * list perr :=
  match set with
  | [] => (pol, [], [])
  | _ => if dmem dir pol then (pol, [], [PMix ngb dir])
         else (dset dir (VStr (map_name i ngb idx dir)) pol, [(map_name i ngb idx dir, entry set)], [])
  end.

(* a neighbor, the new route maps, the errors, and whether it needs the plugin *)
Record pout := mk_po { po_d : dict val; po_maps : list (string * val); po_err : list perr; po_used : bool }.

Definition set_policy (pol : dict val) (d : dict val) : dict val := match pol with [] => d | _ => dset "policy" (VDict pol) d end.

(* extra/bgp.policy/plugin.py:284-313 post_transform: one neighbor, starting with cleanup_neighbor_attributes
   (utils/routing.py:122-125); [routing] - the node has the routing module *)
Definition policy_one (node : string) (lp : option val) (routing : bool) (idx : Z) (i : pintf) (d : dict val) : pout :=
  let ngb := Sess_Model.str_of "name" d in
  let d0 := fold_left (fun d a => dpop a d) (attr_list ++ ["policy"]) d in
  let b := copy_locpref lp (fix_bandwidth (pi_bgp i)) in
  let pol := named routing idx b in
  let s := fold_left (apply_attr node ngb b) attr_list (mk_pa d0 [] [] [] false) in
  let '(p1, m1, e1) := create_policy i ngb idx "in" (pa_in s) pol in
  let '(p2, m2, e2) := create_policy i ngb idx "out" (pa_out s) p1 in
  mk_po (set_policy p2 (pa_d s)) (m1 ++ m2) (named_error routing b ++ pa_err s ++ e1 ++ e2)
        (pa_found s || match pol with [] => false | _ => true end).

(* the node: modules, route maps, errors, the plugin template is needed, sessions to clear *)
Record pstate := mk_ps { ps_module : list string; ps_maps : dict val; ps_err : list perr; ps_config : bool; ps_clear : list val }.

Definition policy_step (node : string) (lp : option val) (idx : Z) (i : pintf) (d : dict val) (st : pstate) : pstate * dict val :=
  let o := policy_one node lp (memS "routing" (ps_module st)) idx i d in
  (mk_ps (match po_maps o with [] => ps_module st | _ => if memS "routing" (ps_module st) then ps_module st else ps_module st ++ ["routing"] end)
         (fold_left (fun m x => dset (fst x) (snd x) m) (po_maps o) (ps_maps st))
         (ps_err st ++ po_err o) (ps_config st || po_used o)
         (if po_used o then Sess_Model.clear_sessions (po_d o) (ps_clear st) else ps_clear st),
   po_d o).

(* extra/bgp.policy/plugin.py:297-313 post_transform: all EBGP neighbors on interfaces, numbered in order *)
Fixpoint policy_loop (node : string) (lp : option val) (idx : Z) (l : list (pintf * dict val)) (st : pstate) : pstate * list (dict val) :=
  match l with
  | [] => (st, [])
  | (i, d) :: r => let '(st1, d1) := policy_step node lp idx i d st in
                   let '(st2, r2) := policy_loop node lp (idx + 1)%Z r st1 in
                   (st2, d1 :: r2)
  end.
End Policy.

(* extra/bgp.policy/plugin.py:299-306 post_transform: extended communities; [com] - bgp.community.ebgp *)
Definition extend_communities (b : dict val) (com : option (list string)) : option (list string) :=
  match dget "bandwidth" b with
  | Some (VDict kv) => if truthy (VDict kv) && dmem "out" kv then
                         match com with
                         | Some l => if memS "extended" l then Some l else Some (l ++ ["extended"])
                         | None => None
                         end
                       else com
  | _ => com
  end.
