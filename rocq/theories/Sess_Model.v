(* Model of the bgp.session plugin: netsim/extra/bgp.session/plugin.py and the functions of
   netsim/utils/routing.py it uses.
   Definitions only. BGP neighbors are dictionaries of values; the global neighbors of a node and the
   neighbors in its VRFs are one list, in the order in which they are processed, every neighbor with
   the name of its VRF. Device features are a function given from outside. The list of plugin
   templates of a node is a flag, _session_clear, _ao_secrets and bgp.rs_client are separate fields of
   a node. Not modelled: error texts, the _src_vrf attribute set while iterating over VRF neighbors, the
   empty ifindex created when the interface index of a neighbor without one is read, and lists of
   attributes to apply that are not lists (a boolean False raises an exception). *)
From Coq Require Import String Ascii ZArith Bool List.
From Verif Require Import Base Box_Model Clone_Model.
Import ListNotations.
Local Open Scope string_scope.
Local Open Scope list_scope.

(* a BGP neighbor: its VRF and its data *)
Record ng := mk_ng { g_vrf : option string; g_d : dict val }.

(* an interface: index, VRF, bgp attributes *)
Record si := mk_si { i_index : Z; i_vrf : option string; i_bgp : dict val }.

Record snode := mk_sn {
  s_module : list string;
  s_bgp : dict val;                    (* node.bgp without the neighbors *)
  s_intf : list si;
  s_ngb : list ng;
  s_config : bool;                     (* the node needs the bgp.session template *)
  s_clear : list val;                  (* bgp._session_clear *)
  s_secrets : list val;                (* bgp._ao_secrets *)
  s_rsc : bool                         (* bgp.rs_client *)
}.

Definition set_ngb (n : snode) (l : list ng) : snode :=
  mk_sn (s_module n) (s_bgp n) (s_intf n) l (s_config n) (s_clear n) (s_secrets n) (s_rsc n).

Inductive serr :=
| ESupport (node attr ngb : string)    (* attribute not supported by the device *)
| EProvider (node attr : string)       (* ... or not with this provider *)
| ENoPassword (node ngb : string)
| ENoBfd (node ngb : string)
| ERsClient (node rs : string).

Definition str_of (k : string) (d : dict val) : string := match dget k d with Some (VStr s) => s | _ => "" end.
Definition g_name (g : ng) : string := str_of "name" (g_d g).
Definition g_type (g : ng) : string := str_of "type" (g_d g).
Definition ibgp (g : ng) : bool := String.eqb (g_type g) "ibgp".
Definition ebgp (g : ng) : bool := String.eqb (g_type g) "ebgp".
(* utils/routing.py:37-53 neighbors: the default selection *)
Definition listed (g : ng) : bool := ibgp g || ebgp g.
Definition set_d (g : ng) (d : dict val) : ng := mk_ng (g_vrf g) d.
Definition vget (k : string) (d : dict val) : bool := match dget k d with Some v => truthy v | None => false end.

(* data/__init__.py:37-47 append_to_list *)
Definition append_item (l : list val) (v : val) : list val := if existsb (veqb v) l then l else l ++ [v].

(* utils/routing.py:122-125 cleanup_neighbor_attributes *)
Definition cleanup_attributes (clist : list string) (n : snode) : snode :=
  set_ngb n (map (fun g => if listed g then set_d g (fold_left (fun d a => dpop a d) clist (g_d g)) else g) (s_ngb n)).

(* bgp.session/plugin.py:31-37 mark_plugin_config: the addresses of the sessions to clear *)
Definition clear_sessions (d : dict val) (l : list val) : list val :=
  fold_left (fun l af => match dget af d with Some v => append_item l v | None => l end) ["ipv4"; "ipv6"] l.

Section Session.
Variable attrs : list string.                          (* defaults.bgp.attributes.session.attr *)
Variable feat : string -> string -> option val.        (* features.bgp of a node *)
Variable provider : string.

(* utils/routing.py:97-116 check_device_attribute_support *)
Definition check_support (node attr ngb : string) : list serr :=
  match feat node attr with
  | None => [ESupport node attr ngb]
  | Some v =>
      if negb (truthy v) then [ESupport node attr ngb]
      else match v with
           | VList l => if existsb (veqb (VStr provider)) l then [] else [EProvider node attr]
           | _ => []
           end
  end.

(* bgp.session/plugin.py:22-26 get_attribute_list *)
Definition attribute_list (v : val) : list string :=
  match v with
  | VNull => attrs
  | VBool true => attrs
  | VList l => if existsb (veqb (VStr "*")) l then attrs
               else flat_map (fun x => match x with VStr s => [s] | _ => [] end) l
  | _ => []
  end.

(* bgp.session/plugin.py:48-50 the value of an attribute: from the interface, then from the node *)
Definition attr_value (bgp : dict val) (intf : option (dict val)) (a : string) : option val :=
  let v := match intf with
           | Some i => match dget a i with Some x => if truthy x then Some x else None | None => None end
           | None => None
           end in
  match v with
  | Some x => Some x
  | None => match dget a bgp with Some x => if truthy x then Some x else None | None => None end
  end.

(* bgp.session/plugin.py:43-59 apply_neighbor_attributes: data, no error so far, errors, sessions to
   clear, anything applied *)
Fixpoint apply_attributes (node : string) (bgp : dict val) (intf : option (dict val)) (l : list string)
  (d : dict val) (ok : bool) (clear : list val) : dict val * bool * list serr * list val * bool :=
  match l with
  | [] => (d, ok, [], clear, false)
  | a :: r =>
      match attr_value bgp intf a with
      | None => apply_attributes node bgp intf r d ok clear
      | Some v =>
          let e := if ok then check_support node a (str_of "name" d) else [] in
          let d' := dset a v d in
          let '(d2, ok2, e2, c2, _) :=
            apply_attributes node bgp intf r d' (ok && match e with [] => true | _ => false end) (clear_sessions d' clear) in
          (d2, ok2, e ++ e2, c2, true)
      end
  end.

(* the sessions of the selected neighbors, one after the other: neighbors, no error so far, errors,
   sessions to clear, anything applied; [stop]: nothing more is done after an error *)
Fixpoint apply_all (node : string) (bgp : dict val) (intf : option (dict val)) (l : list string) (sel : ng -> bool)
  (stop : bool) (gs : list ng) (ok : bool) (clear : list val) : list ng * bool * list serr * list val * bool :=
  match gs with
  | [] => ([], ok, [], clear, false)
  | g :: r =>
      if sel g && (ok || negb stop) then
        let '(d, ok1, e1, c1, u1) := apply_attributes node bgp intf l (g_d g) true clear in
        let '(r2, ok2, e2, c2, u2) := apply_all node bgp intf l sel stop r (ok && ok1) c1 in
        (set_d g d :: r2, ok2, e1 ++ e2, c2, u1 || u2)
      else
        let '(r2, ok2, e2, c2, u2) := apply_all node bgp intf l sel stop r ok clear in
        (g :: r2, ok2, e2, c2, u2)
  end.

Definition vrf_eqb (a b : option string) : bool :=
  match a, b with Some x, Some y => String.eqb x y | None, None => true | _, _ => false end.

(* utils/routing.py:56-68 intf_neighbors: an EBGP neighbor on an interface *)
Definition on_intf (i : si) (g : ng) : bool :=
  vrf_eqb (i_vrf i) (g_vrf g) && ebgp g &&
  match dget "ifindex" (g_d g) with Some (VInt z) => Z.eqb z (i_index i) | _ => false end.

Fixpoint apply_intfs (node : string) (bgp : dict val) (l : list string) (is : list si) (gs : list ng) (clear : list val)
  : list ng * list serr * list val * bool :=
  match is with
  | [] => (gs, [], clear, false)
  | i :: r =>
      let '(g1, _, e1, c1, u1) := apply_all node bgp (Some (i_bgp i)) l (on_intf i) false gs true clear in
      let '(g2, e2, c2, u2) := apply_intfs node bgp l r g1 c1 in
      (g2, e1 ++ e2, c2, u1 || u2)
  end.

(* bgp.session/plugin.py:66 *)
Definition session_apply (bgp : dict val) : dict val :=
  match lookup ["session"; "apply"] (VDict bgp) with
  | Some (VDict d) => d
  | _ => [("ebgp", VNull)]
  end.

(* bgp.session/plugin.py:65-82 copy_local_attributes *)
Definition copy_local (node : string) (n : snode) : snode * list serr :=
  let ap := session_apply (s_bgp n) in
  let '(g1, ok, e1, c1, u1) :=
    match dget "ibgp" ap with
    | Some v => apply_all node (s_bgp n) None (attribute_list v) ibgp true (s_ngb n) true (s_clear n)
    | None => (s_ngb n, true, [], s_clear n, false)
    end in
  let '(g2, e2, c2, u2) :=
    if ok then
      match dget "ebgp" ap with
      | Some v => apply_intfs node (s_bgp n) (attribute_list v) (s_intf n) g1 c1
      | None => (g1, [], c1, false)
      end
    else (g1, [], c1, false) in
  (mk_sn (s_module n) (s_bgp n) (s_intf n) g2 (s_config n || u1 || u2) c2 (s_secrets n) (s_rsc n), e1 ++ e2).

(* bgp.session/plugin.py:89-109 process_tcpao_password, process_tcpao_secrets *)
Definition tcpao (node : string) (n : snode) : snode * list serr :=
  let l := filter (fun g => listed g && dmem "tcp_ao" (g_d g)) (s_ngb n) in
  let sec := fold_left (fun acc g => match dget "password" (g_d g) with Some p => append_item acc p | None => acc end) l (s_secrets n) in
  (mk_sn (s_module n) (s_bgp n) (s_intf n) (s_ngb n) (s_config n) (s_clear n) sec (s_rsc n),
   flat_map (fun g => if dmem "password" (g_d g) then [] else [ENoPassword node (g_name g)]) l).

(* bgp.session/plugin.py:114-126 process_bfd_requests *)
Definition bfd_requests (node : string) (n : snode) : snode * list serr :=
  (set_ngb n (map (fun g => if listed g && dmem "bfd" (g_d g) && negb (vget "bfd" (g_d g)) then set_d g (dpop "bfd" (g_d g)) else g) (s_ngb n)),
   flat_map (fun g => if listed g && vget "bfd" (g_d g) && negb (memS "bfd" (s_module n)) then [ENoBfd node (g_name g)] else []) (s_ngb n)).

(* bgp.session/plugin.py:131-135 zap_bgp_neighbor *)
Definition zap (g : ng) : ng :=
  set_d g (dset "_zapped" (VBool true) (fold_left (fun d k => dpop k d) ["ipv4"; "ipv6"; "local_if"; "ifindex"] (g_d g))).

Fixpoint set_nth (i : nat) (x : ng) (l : list ng) : list ng :=
  match l, i with
  | [], _ => []
  | _ :: r, O => x :: r
  | y :: r, S j => y :: set_nth j x r
  end.

(* a session of the remote node with the route server *)
Definition back (rs : string) (r : ng) : bool := listed r && String.eqb (g_name r) rs.

(* bgp.session/plugin.py:157-175 set_rs_client: the remote node *)
Definition rs_remote (rs remote : string) (b : snode) : snode * list serr :=
  let clients := filter (fun r => back rs r && negb (vget "rs" (g_d r))) (s_ngb b) in
  let used := match clients with [] => false | _ => true end in
  (mk_sn (s_module b) (s_bgp b) (s_intf b)
     (map (fun r => if back rs r then if vget "rs" (g_d r) then zap r else set_d r (dset "rs_client" (VBool true) (g_d r)) else r) (s_ngb b))
     (s_config b || used)
     (fold_left (fun c r => clear_sessions (g_d r) c) clients (s_clear b))
     (s_secrets b) (s_rsc b || used),
   flat_map (fun r => match check_support remote "rs_client" (g_name r) with [] => [] | e => e ++ [ERsClient remote rs] end) clients).

(* bgp.session/plugin.py:183-197 process_rs_requests: one neighbor *)
Definition rs_one (a : string) (t : dict snode) (i : nat) : dict snode * list serr :=
  match dget a t with
  | None => (t, [])
  | Some n =>
      match nth_error (s_ngb n) i with
      | None => (t, [])
      | Some g =>
          if listed g && vget "rs" (g_d g) then
            if ibgp g then (dset a (set_ngb n (set_nth i (set_d g (dpop "rs" (g_d g))) (s_ngb n))) t, [])
            else
              match dget (g_name g) t with
              | None => (t, [])
              | Some b =>
                  let (b', e) := rs_remote a (g_name g) b in
                  let t1 := dset (g_name g) b' t in
                  if existsb (fun r => back a r && vget "rs" (g_d r)) (s_ngb b) then
                    match dget a t1 with
                    | Some n1 => (dset a (set_ngb n1 (set_nth i (zap g) (s_ngb n1))) t1, e)
                    | None => (t1, e)
                    end
                  else (t1, e)
              end
          else (t, [])
      end
  end.

Fixpoint rs_loop (a : string) (l : list nat) (t : dict snode) : dict snode * list serr :=
  match l with
  | [] => (t, [])
  | i :: r => let (t1, e1) := rs_one a t i in let (t2, e2) := rs_loop a r t1 in (t2, e1 ++ e2)
  end.

(* a route server session *)
Definition rs_session (g : ng) : bool := listed g && vget "rs" (g_d g) && negb (ibgp g).

Definition local_part (name : string) (n : snode) : snode * list serr :=
  let (n1, e1) := copy_local name (cleanup_attributes attrs n) in
  let (n2, e2) := tcpao name n1 in
  let (n3, e3) := bfd_requests name n2 in
  (n3, e1 ++ e2 ++ e3).

(* bgp.session/plugin.py:244-254 post_transform: one node; the last value tells whether there is a route server *)
Definition node_step (name : string) (t : dict snode) : dict snode * list serr * bool :=
  match dget name t with
  | None => (t, [], false)
  | Some n =>
      if memS "bgp" (s_module n) then
        let (n1, e1) := local_part name n in
        let (t2, e2) := rs_loop name (seq 0 (length (s_ngb n1))) (dset name n1 t) in
        (t2, e1 ++ e2, existsb rs_session (s_ngb n1))
      else (t, [], false)
  end.

Fixpoint node_steps (l : list string) (t : dict snode) : dict snode * list serr * bool :=
  match l with
  | [] => (t, [], false)
  | x :: r =>
      let '(t1, e1, h1) := node_step x t in
      let '(t2, e2, h2) := node_steps r t1 in
      (t2, e1 ++ e2, h1 || h2)
  end.

Definition opt_veqb (a b : option val) : bool :=
  match a, b with Some x, Some y => veqb x y | None, None => true | _, _ => false end.

(* bgp.session/plugin.py:210-219 cleanup_rs_mesh: one node. The sessions with route servers are not
   changed, so it does not matter when their interface index is read. *)
Definition mesh_cleanup (l : list ng) : list ng :=
  fold_left (fun acc c =>
      map (fun x => if ebgp x && opt_veqb (dget "ifindex" (g_d x)) (dget "ifindex" (g_d c)) &&
                       negb (dmem "rs" (g_d x)) && negb (dmem "rs_client" (g_d x)) then zap x else x) acc)
    (filter (fun c => ebgp c && dmem "rs_client" (g_d c)) l) l.

(* bgp.session/plugin.py:227-235 cleanup_bgp_neighbors *)
Definition remove_zapped (l : list ng) : list ng := filter (fun g => negb (dmem "_zapped" (g_d g))) l.

(* bgp.session/plugin.py:244-260 post_transform *)
Definition session_transform (t : dict snode) : dict snode * list serr :=
  let '(t1, e, h) := node_steps (dkeys t) t in
  (if h then map (fun '(k, n) => (k, set_ngb n (remove_zapped (mesh_cleanup (s_ngb n))))) t1 else t1, e).
End Session.
