(* Model of netsim/modules/mpls.py: LDP, BGP labeled unicast, MPLS/VPN and 6PE.
   Definitions only. Values of mpls attributes are values of Box_Model. Not modelled: error texts, the
   router ID of LDP (Rid_Model.v), the attributes of LDP, list elements that are not strings (a TypeError
   while the error text is built). *)
From Coq Require Import String ZArith Bool List.
From Verif Require Import Base Box_Model.
Import ListNotations.
Local Open Scope string_scope.
Local Open Scope list_scope.

(* ---- data/__init__.py:121-139 bool_to_defaults: the new value of the attribute, None when it is removed ---- *)
Fixpoint bool_to_defaults (defv : option val) (v : val) {struct v} : option val :=
  match v with
  | VDict d =>
      Some (VDict ((fix go (d : list (string * val)) : list (string * val) :=
        match d with
        | [] => []
        | (k, x) :: r =>
            match match defv with Some (VDict dd) => dget k dd | _ => None end with
            | Some y => match bool_to_defaults (Some y) x with
                        | Some x' => (k, x') :: go r
                        | None => go r
                        end
            | None => (k, x) :: go r
            end
        end) d))
  | VBool false => None
  | VBool true => match defv with Some y => Some y | None => Some v end
  | _ => Some v
  end.

(* mpls.py:15 *)
Definition AF_LIST : list string := ["ipv4"; "ipv6"].
(* mpls.py:16 *)
Definition BGP_SESSIONS : list string := ["ibgp"; "ebgp"].

Definition strs (l : list string) : val := VList (map VStr l).

(* mpls.py:18-28 *)
Definition DEFAULT_BGP_LU : val := VDict [("ipv4", strs ["ibgp"; "ebgp"]); ("ipv6", strs ["ibgp"; "ebgp"])].
Definition DEFAULT_VPN_AF : val := VDict [("ipv4", strs ["ibgp"]); ("ipv6", strs ["ibgp"])].
Definition DEFAULT_6PE_AF : val := strs ["ibgp"].

Inductive merr :=
| ENoIgp                          (* mpls.py:217-221 *)
| ENoBgp                          (* mpls.py:226-231 *)
| ELdpNoIpv4                      (* mpls.py:37-42 *)
| ECsc (intf : string)            (* mpls.py:55-60 *)
| ESession (feature : string)     (* check_valid_values: a value that is not a session type *)
| EAfType (feature af : string)   (* must_be_list: not a scalar or a list *)
| EParam (feature : string)       (* mpls.py:107-112 *)
| ESixNoIpv4                      (* mpls.py:132-137 *)
| ESixLabeled                     (* mpls.py:139-144 *)
| EFeature (feature : string)     (* mpls.py:192-197 *)
| EFeatureAf (feature af : string). (* mpls.py:199-205 *)

(* ---- node_pre_transform ---- *)

Definition set_opt (k : string) (o : option val) (d : dict val) : dict val :=
  match o with Some v => dset k v d | None => dpop k d end.

Definition attr_defaults (k : string) (defv : val) (d : dict val) : dict val :=
  match dget k d with Some v => set_opt k (bool_to_defaults (Some defv) v) d | None => d end.

(* mpls.py:209-231 node_pre_transform: [m] are the mpls attributes of the node (None: not in the node);
   the check of ldp.disable_unlabeled is not modelled *)
Definition node_pre_transform (mods : list string) (m : option (dict val)) : option (dict val) * list merr :=
  match m with
  | None => (None, [])
  | Some d0 =>
      let d1 := attr_defaults "ldp" (VDict []) d0 in
      let e1 := if dmem "ldp" d1 && negb (existsb (fun x => memS x ["ospf"; "isis"; "eigrp"]) mods) then [ENoIgp] else [] in
      let d2 := attr_defaults "6pe" DEFAULT_6PE_AF (attr_defaults "vpn" DEFAULT_VPN_AF (attr_defaults "bgp" DEFAULT_BGP_LU d1)) in
      let e2 := if (dmem "bgp" d2 || dmem "vpn" d2) && negb (memS "bgp" mods) then [ENoBgp] else [] in
      (Some d2, e1 ++ e2)
  end.

(* ---- node data ---- *)

Record mintf := mk_mi {
  mi_name : string;
  mi_v4 : bool;                   (* 'ipv4' in the interface *)
  mi_vrf : bool;                  (* 'vrf' in the interface *)
  mi_role : string;               (* empty: no role *)
  mi_type : string;
  mi_ngbs : list string;
  mi_flag : option bool;          (* mpls.ldp of the interface *)
  mi_ldp : option bool            (* ldp.passive; None: no ldp attribute *)
}.

Record mngb := mk_mg {
  mg_name : string;
  mg_type : string;               (* ibgp, ebgp or another session type *)
  mg_v4 : option val;
  mg_v6 : option val;
  mg_label4 : bool;               (* ipv4_label *)
  mg_label6 : bool;
  mg_vpn4 : option val;           (* vpnv4 *)
  mg_vpn6 : option val;
  mg_6pe : bool
}.

Record mnode := mk_mn {
  mn_af : list string;            (* address families of the node *)
  mn_mpls : dict val;
  mn_bgp4 : bool;                 (* 'ipv4' in bgp *)
  mn_rr : bool;                   (* bgp.rr *)
  mn_vrfs : list (list string);   (* address families of each VRF *)
  mn_ngbs : list mngb;
  mn_intfs : list mintf;
  mn_ldp : bool                   (* 'ldp' in the node *)
}.

Definition set_mpls (m : dict val) (n : mnode) : mnode :=
  mk_mn (mn_af n) m (mn_bgp4 n) (mn_rr n) (mn_vrfs n) (mn_ngbs n) (mn_intfs n) (mn_ldp n).
Definition set_ngbs (l : list mngb) (n : mnode) : mnode :=
  mk_mn (mn_af n) (mn_mpls n) (mn_bgp4 n) (mn_rr n) (mn_vrfs n) l (mn_intfs n) (mn_ldp n).
Definition set_intfs (l : list mintf) (b : bool) (n : mnode) : mnode :=
  mk_mn (mn_af n) (mn_mpls n) (mn_bgp4 n) (mn_rr n) (mn_vrfs n) (mn_ngbs n) l b.

(* ---- LDP ---- *)

Definition set_ldp (i : mintf) (flag p : option bool) : mintf :=
  mk_mi (mi_name i) (mi_v4 i) (mi_vrf i) (mi_role i) (mi_type i) (mi_ngbs i) flag p.

(* _routing.py:134-167 passive, _routing.py:111-121 is_true_stub; [running] tells whether ldp is a module of a node *)
Definition ldp_passive (running : string -> bool) (i : mintf) : bool :=
  match mi_ldp i with
  | Some b => b
  | None =>
      if String.eqb (mi_role i) "passive" || String.eqb (mi_role i) "external" || String.eqb (mi_type i) "stub" then true
      else if negb (String.eqb (mi_role i) "stub") then false
      else forallb (fun n => negb (running n)) (mi_ngbs i)
  end.

(* mpls.py:48-71: one interface; None - an exception in _routing.passive: interface ldp attribute is True.
   bool_to_defaults (mpls.py:63) removes the False value. *)
Definition ldp_intf (csc : bool) (running : string -> bool) (i : mintf) : option mintf * list merr :=
  if negb (mi_v4 i) then (Some i, [])
  else if mi_vrf i && match mi_flag i with Some true => false | _ => true end then (Some i, [])
  else if mi_vrf i && negb csc then (Some i, [ECsc (mi_name i)])
  else
    let external := String.eqb (mi_role i) "external" in
    match mi_flag i with
    | Some true => if external then (Some (set_ldp i (Some true) None), []) else (None, [])
    | _ => if external then (Some (set_ldp i None None), [])
           else (Some (set_ldp i None (Some (ldp_passive running i))), [])
    end.

Fixpoint ldp_intfs (csc : bool) (running : string -> bool) (l : list mintf) : option (list mintf) * list merr :=
  match l with
  | [] => (Some [], [])
  | i :: r =>
      match ldp_intf csc running i with
      | (None, e) => (None, e)
      | (Some i', e1) =>
          let (o, e2) := ldp_intfs csc running r in
          (match o with Some r' => Some (i' :: r') | None => None end, e1 ++ e2)
      end
  end.

Definition has_ldp (i : mintf) : bool := match mi_ldp i with Some _ => true | None => false end.

(* mpls.py:36-73 node_adjust_ldp; _routing.py:308-329 remove_unused_igp removes unused ldp data from the node *)
Definition node_adjust_ldp (csc : bool) (running : string -> bool) (n : mnode) : option mnode * list merr :=
  if negb (memS "ipv4" (mn_af n)) then (Some n, [ELdpNoIpv4])
  else
    match ldp_intfs csc running (mn_intfs n) with
    | (None, e) => (None, e)
    | (Some l, e) => (Some (set_mpls (dpop "ldp" (mn_mpls n)) (set_intfs l (existsb has_ldp l) n)), e)
    end.

(* ---- BGP parameters ---- *)

Definition is_session (v : val) : bool := match v with VStr s => memS s BGP_SESSIONS | _ => false end.

(* check_valid_values on a list *)
Definition session_errs (feature : string) (l : list val) : list merr :=
  if forallb is_session l then [] else [ESession feature].

(* mpls.py:90-105: the address families of a dictionary; the flag is false when the validation fails *)
Fixpoint validate_afs (feature : string) (afs : list string) (d : dict val) : dict val * bool * list merr :=
  match afs with
  | [] => (d, true, [])
  | af :: r =>
      match dget af d with
      | None => validate_afs feature r d
      | Some (VDict _) => (d, false, [EAfType feature af])
      | Some v =>
          let l := match v with VList l => l | VNull => [] | x => [x] end in
          let d' := dset af (VList l) d in
          match l with
          | [] => (d', false, [])
          | _ :: _ =>
              match validate_afs feature r d' with
              | (d2, ok, e) => (d2, ok, session_errs feature l ++ e)
              end
          end
      end
  end.

(* mpls.py:75-114 validate_mpls_bgp_parameter *)
Definition validate_param (feature : string) (n : mnode) : mnode * bool * list merr :=
  match dget feature (mn_mpls n) with
  | Some (VList []) => (n, false, [])
  | Some (VList l) =>
      (set_mpls (dset feature (VDict (map (fun af => (af, VList l)) (mn_af n))) (mn_mpls n)) n, true, session_errs feature l)
  | Some (VDict d) =>
      match validate_afs feature AF_LIST d with
      | (d', ok, e) => (set_mpls (dset feature (VDict d') (mn_mpls n)) n, ok, e)
      end
  | None => (set_mpls (dset feature (VDict []) (mn_mpls n)) n, true, [])     (* an empty dictionary is created *)
  | Some _ => (n, false, [EParam feature])
  end.

(* x in list *)
Definition in_val (s : string) (v : val) : bool :=
  match v with VList l => existsb (fun x => match x with VStr y => String.eqb s y | _ => false end) l | _ => false end.

Definition sub_attrs (feature : string) (n : mnode) : dict val :=
  match dget feature (mn_mpls n) with Some (VDict d) => d | _ => [] end.

Definition isSome {A} (o : option A) : bool := match o with Some _ => true | None => false end.

(* mpls.py:123-126 *)
Definition label_ngb (d : dict val) (g : mngb) : mngb :=
  let on af (addr : option val) := isSome addr && match dget af d with Some v => in_val (mg_type g) v | None => false end in
  mk_mg (mg_name g) (mg_type g) (mg_v4 g) (mg_v6 g) (mg_label4 g || on "ipv4" (mg_v4 g)) (mg_label6 g || on "ipv6" (mg_v6 g))
    (mg_vpn4 g) (mg_vpn6 g) (mg_6pe g).

(* mpls.py:116-126 node_adjust_bgplu *)
Definition node_adjust_bgplu (n : mnode) : mnode * list merr :=
  match validate_param "bgp" n with
  | (n', false, e) => (n', e)
  | (n', true, e) => (set_ngbs (map (label_ngb (sub_attrs "bgp" n')) (mn_ngbs n')) n', e)
  end.

(* mpls.py:159-170 prune_mplsvpn_af *)
Definition prune_af (vrfs : list (list string)) (af : string) (d : dict val) : dict val :=
  match dget af d with
  | Some v => if negb (existsb (memS af) vrfs) && negb (in_val "ebgp" v) then dpop af d else d
  | None => d
  end.

(* mpls.py:179-183 *)
Definition vpn_ngb (d : dict val) (g : mngb) : mngb :=
  match mg_v4 g with
  | None => g
  | Some a =>
      mk_mg (mg_name g) (mg_type g) (mg_v4 g) (mg_v6 g) (mg_label4 g) (mg_label6 g)
        (if dmem "ipv4" d then Some a else mg_vpn4 g) (if dmem "ipv6" d then Some a else mg_vpn6 g) (mg_6pe g)
  end.

(* mpls.py:172-183 node_adjust_mplsvpn *)
Definition node_adjust_mplsvpn (n : mnode) : mnode * list merr :=
  match validate_param "vpn" n with
  | (n', false, e) => (n', e)
  | (n', true, e) =>
      let d := sub_attrs "vpn" n' in
      let d' := if mn_rr n' then d else prune_af (mn_vrfs n') "ipv6" (prune_af (mn_vrfs n') "ipv4" d) in
      (set_ngbs (map (vpn_ngb d') (mn_ngbs n')) (set_mpls (dset "vpn" (VDict d') (mn_mpls n')) n'), e)
  end.

(* mpls.py:149-157; [peer] is the mpls.6pe list of the neighbor *)
Definition six_ngb (own : val) (peer : string -> val) (g : mngb) : mngb :=
  if isSome (mg_v4 g) && in_val (mg_type g) own then
    mk_mg (mg_name g) (mg_type g) (mg_v4 g) (if in_val (mg_type g) (peer (mg_name g)) then None else mg_v6 g)
      (mg_label4 g) (mg_label6 g) (mg_vpn4 g) (mg_vpn6 g) true
  else g.

(* mpls.py:128-157 node_adjust_6pe *)
Definition node_adjust_6pe (peer : string -> val) (n : mnode) : mnode * list merr :=
  match validate_param "bgp" n with
  | (n', false, e) => (n', e)
  | (n', true, e) =>
      if negb (mn_bgp4 n') then (n', e ++ [ESixNoIpv4])
      else if dmem "ipv6" (sub_attrs "bgp" n') then (n', e ++ [ESixLabeled])
      else
        let own := match dget "6pe" (mn_mpls n') with Some v => v | None => VList [] end in
        (set_ngbs (map (six_ngb own peer) (mn_ngbs n')) n', e)
  end.

(* ---- device features ---- *)

Inductive feat := FOff | FOn | FAf (v4 v6 : bool).

(* mpls.py:188-205 check_node_features: one feature *)
Definition check_feature (fs : string -> feat) (m : dict val) (fn : string) : list merr :=
  match dget fn m with
  | None => []
  | Some v =>
      match fs fn, v with
      | FOff, _ => [EFeature fn]
      | FAf v4 v6, VDict d =>
          (if dmem "ipv4" d && negb v4 then [EFeatureAf fn "ipv4"] else []) ++
          (if dmem "ipv6" d && negb v6 then [EFeatureAf fn "ipv6"] else [])
      | _, _ => []
      end
  end.

(* mpls.py:30-35 *)
Definition FEATURES : list string := ["ldp"; "bgp"; "vpn"; "6pe"].

Definition check_node_features (fs : string -> feat) (m : dict val) : list merr := flat_map (check_feature fs m) FEATURES.

(* mpls.py:233-255 node_post_transform; None - an exception *)
Definition node_post_transform (fs : string -> feat) (csc : bool) (running : string -> bool) (peer : string -> val) (n : mnode)
  : option mnode * list merr :=
  match mn_mpls n with
  | [] => (Some n, [])
  | _ =>
      match (if dmem "ldp" (mn_mpls n) then node_adjust_ldp csc running n else (Some n, [])) with
      | (None, e) => (None, e)
      | (Some n1, e1) =>
          let (n2, e2) := if dmem "bgp" (mn_mpls n1) then node_adjust_bgplu n1 else (n1, []) in
          let (n3, e3) := if dmem "vpn" (mn_mpls n2) then node_adjust_mplsvpn n2 else (n2, []) in
          let (n4, e4) := if dmem "6pe" (mn_mpls n3) then node_adjust_6pe peer n3 else (n3, []) in
          (Some n4, e1 ++ e2 ++ e3 ++ e4 ++ check_node_features fs (mn_mpls n4))
      end
  end.
