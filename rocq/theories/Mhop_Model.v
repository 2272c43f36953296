(* Model of netsim/extra/ebgp.multihop/plugin.py. Definitions only. Expansion of the session list (adjust_link_list) and the
   validation of attributes are not part of the model; a session is a dictionary of attributes and a list of interfaces. *)
From Coq Require Import String ZArith Bool List.
From Verif Require Import Base Box_Model.
Import ListNotations.
Local Open Scope string_scope.
Local Open Scope list_scope.

(* ---------- pre_link_transform ---------- *)

Definition bgp_of (d : dict val) : dict val := match dget "bgp" d with Some (VDict b) => b | _ => [] end.

(* extra/ebgp.multihop/plugin.py:35-40 and 58-62 pre_link_transform: attributes that are not in [keep] become bgp attributes *)
Definition to_bgp (keep : list string) (d : dict val) : dict val :=
  fold_left (fun d kv => if memS (fst kv) keep then d
                         else dpop (fst kv) (dset "bgp" (VDict (dset (fst kv) (snd kv) (bgp_of d))) d)) d d.

Definition SESSION_KEEP : list string := ["interfaces"; "_linkname"; "bgp"; "vrf"].
Definition INTF_KEEP : list string := ["node"; "bgp"; "vrf"].

(* extra/ebgp.multihop/plugin.py:42-44 pre_link_transform *)
Definition session_attr (idx : Z) (d : dict val) : dict val :=
  dset "_bgp_session" (VBool true) (dset "linkindex" (VInt idx) (dset "type" (VStr "tunnel") (to_bgp SESSION_KEEP d))).

Definition set_bgp (k : string) (v : val) (d : dict val) : dict val := dset "bgp" (VDict (dset k v (bgp_of d))) d.

(* extra/ebgp.multihop/plugin.py:57-86 pre_link_transform: an interface of a session; [lb] - the loopback of the node, [name] -
   the name of the interface; None - the error about a missing loopback *)
Definition session_intf (lb : option (dict val)) (name : string) (d : dict val) : dict val * bool :=
  let d := to_bgp INTF_KEEP d in
  match lb with
  | None => (d, false)
  | Some l =>
      let d := match dget "ipv4" l with Some a => dset "ipv4" a d | None => d end in
      let d := match dget "ipv6" l with Some a => dset "ipv6" a d | None => d end in
      let d := set_bgp "multihop" (VInt 255) d in
      let d := match dget "vrf" d with Some v => set_bgp "_vrf" v d | None => d end in
      (dset "ifname" (VStr name) (dset "_bgp_session" (VBool true) d), true)
  end.

Record msession := mk_ms { ms_attr : dict val; ms_intf : list (dict val) }.

(* links.py:1105-1110 get_next_linkindex: the indexes of the links, [first] - the default index *)
Definition next_linkindex (first : Z) (links : list Z) : Z := match rev links with [] => first | x :: _ => (x + 1)%Z end.

Definition node_of (d : dict val) : string := match dget "node" d with Some (VStr n) => n | _ => "" end.

(* extra/ebgp.multihop/plugin.py:33-88 pre_link_transform: the list of links is extended after the loop *)
Definition sessions (first : Z) (name : Z -> string) (loopback : string -> option (dict val)) (links : list Z) (l : list msession)
  : list msession :=
  map (fun s => let idx := next_linkindex first links in
                mk_ms (session_attr idx (ms_attr s)) (map (fun i => fst (session_intf (loopback (node_of i)) (name idx) i)) (ms_intf s))) l.

Definition session_errors (loopback : string -> option (dict val)) (l : list msession) : list string :=
  flat_map (fun s => flat_map (fun i => match loopback (node_of i) with None => [node_of i] | Some _ => [] end) (ms_intf s)) l.

(* ---------- post_transform: address families ---------- *)

(* extra/ebgp.multihop/plugin.py:132-135 augment_af_activation: the object is changed *)
Definition set_flag (x : string) (on : bool) (d : dict val) : dict val := if on then dset x (VBool true) d else dpop x d.

(* extra/ebgp.multihop/plugin.py:131-135 augment_af_activation: one address family *)
Definition set_af (x : string) (on : bool) (n : dict val) : dict val :=
  if memS x ["ipv4"; "ipv6"] then dset "activate" (VDict (set_flag x on (match dget "activate" n with Some (VDict a) => a | _ => [] end))) n
  else set_flag x on n.

(* extra/ebgp.multihop/plugin.py:117-136 augment_af_activation: one neighbor; [vals] - the address families of a transport,
   [act] - the address families to activate *)
Definition augment_ngb (vals act : string -> list string) (n : dict val) : dict val :=
  if dmem "multihop" n then
    fold_left (fun n af => if dmem af n then fold_left (fun n x => set_af x (memS x (act af)) n) (vals af) n else n) ["ipv4"; "ipv6"] n
  else n.

(* ---------- post_transform: loopbacks ---------- *)

(* an interface: its type, its VRF and addresses with prefix lengths *)
Record lintf := mk_li { li_name : string; li_type : string; li_vrf : option string; li_ipv4 : option string; li_ipv6 : option string }.

(* a BGP neighbor; mn_src - the VRF the neighbor is in *)
Record mngb := mk_mn {
  mn_name : string; mn_type : string; mn_multihop : bool; mn_vrf : option string; mn_src : option string;
  mn_ipv4 : option string; mn_ipv6 : option string; mn_source : option lintf
}.

(* modules/vrf.py:375-384 get_vrf_loopback *)
Definition get_vrf_loopback (l : list lintf) (v : string) : option lintf :=
  find (fun i => String.eqb (li_type i) "loopback" && match li_vrf i with Some w => String.eqb w v | None => false end) l.

Inductive merr := MNoVrf (node vrf : string) | MNoLoopback (node ngb vrf : string) | MNoSupport (node : string) | MNoActivate (node : string).

Section Fix.
Variable ip : string -> string.                            (* the address without the prefix length *)
Variable interfaces : string -> list lintf.                (* interfaces of the nodes *)
Variable vrf_feature : bool.                               (* features.bgp.multihop.vrf is True *)

Definition set_addr (n : mngb) (lb : lintf) : mngb :=
  mk_mn (mn_name n) (mn_type n) (mn_multihop n) (mn_vrf n) (mn_src n) (option_map ip (li_ipv4 lb)) (option_map ip (li_ipv6 lb)) (mn_source n).
Definition set_source (n : mngb) (lb : option lintf) : mngb :=
  mk_mn (mn_name n) (mn_type n) (mn_multihop n) (mn_vrf n) (mn_src n) (mn_ipv4 n) (mn_ipv6 n) lb.

(* extra/ebgp.multihop/plugin.py:182-202 fix_vrf_loopbacks: the source of the session; [global] - loopback of the node *)
Definition fix_source (node : string) (global : option lintf) (n : mngb) : mngb * list merr :=
  match mn_src n with
  | None => (set_source n global, [])
  | Some v => if negb vrf_feature then (n, [MNoVrf node v])
              else match get_vrf_loopback (interfaces node) v with
                   | None => (n, [MNoLoopback node (mn_name n) v])
                   | Some lb => (set_source n (Some lb), [])
                   end
  end.

(* extra/ebgp.multihop/plugin.py:168-202 fix_vrf_loopbacks: one neighbor *)
Definition fix_ngb (node : string) (global : option lintf) (n : mngb) : mngb * list merr :=
  if negb (memS (mn_type n) ["ebgp"; "localas_ibgp"]) then (n, [])
  else if negb (mn_multihop n) then (n, [])
  else match mn_vrf n with
       | Some v => match get_vrf_loopback (interfaces (mn_name n)) v with
                   | None => (n, [])
                   | Some lb => fix_source node global (set_addr n lb)
                   end
       | None => fix_source node global n
       end.
End Fix.

(* ---------- post_transform: cleanup ---------- *)

(* an interface is its name and whether it was made for a session *)
Definition fakes (l : list (string * bool)) : list (string * bool) := filter (fun i => negb (snd i)) l.

Record mnode := mk_md {
  md_intf : list (string * bool);
  md_vrfs : list (string * list (string * list (string * bool)))     (* VRF -> routing protocol -> interfaces *)
}.

(* extra/ebgp.multihop/plugin.py:150-155 cleanup_interfaces *)
Definition cleanup (n : mnode) : mnode :=
  mk_md (fakes (md_intf n))
        (map (fun '(v, ps) => (v, map (fun '(p, l) => if String.eqb p "ospf" then (p, fakes l) else (p, l)) ps)) (md_vrfs n)).

(* extra/ebgp.multihop/plugin.py:141-145 remove_fake_interfaces, extra/ebgp.multihop/plugin.py:150-157 cleanup_interfaces: has a list become shorter *)
Definition changed (n : mnode) : bool :=
  negb (Nat.eqb (length (fakes (md_intf n))) (length (md_intf n))) ||
  existsb (fun '(v, ps) => existsb (fun '(p, l) => String.eqb p "ospf" && negb (Nat.eqb (length (fakes l)) (length l))) ps) (md_vrfs n).

(* extra/ebgp.multihop/plugin.py:93-100 check_multihop_support, extra/ebgp.multihop/plugin.py:105-112 check_af_activation_support,
   extra/ebgp.multihop/plugin.py:157-160 cleanup_interfaces: the errors of a node with sessions; [act] - an address family is set *)
Definition support_errors (multihop activate act : bool) (node : string) (n : mnode) : list merr :=
  if changed n then (if multihop then [] else [MNoSupport node]) ++ (if act && negb activate then [MNoActivate node] else []) else [].
