(* Model of extra configuration templates (netsim/augment/nodes.py:cleanup, netsim/augment/plugin.py:sort_extra_config)
   and of the removal of unmanaged devices (netsim/augment/nodes.py:ghost_buster). Definitions only. *)
From Coq Require Import String ZArith Bool List.
From Verif Require Import Base Sort_Model.
Import ListNotations.
Open Scope Z_scope.

(* nodes.py:620-622: plugin templates in front of node templates *)
Definition cleanup_config (plugin_config config : list string) : list string :=
  filter (fun c => memS c plugin_config) config ++ filter (fun c => negb (memS c plugin_config)) config.

(* cfg[:cfg.index(c)]; callers check that c is in the list *)
Fixpoint before_first (c : string) (cfg : list string) : list string :=
  match cfg with
  | [] => []
  | x :: r => if String.eqb c x then [] else x :: before_first c r
  end.

(* plugin.py:140-152 find_preceding_configs; [nodes] are the config lists of nodes that have one. The order of the
   resulting set does not matter. *)
Definition find_preceding_configs (nodes : list (list string)) (c : string) : list string :=
  flat_map (fun cfg => if memS c cfg then before_first c cfg else []) nodes.

(* plugin.py:161-176 sort_extra_config; [order] turns the set of templates into a list *)
Definition sort_extra_config (order : list string -> list string) (nodes : list (list string)) : result sort_error (list string) :=
  match order (nodup string_dec (concat nodes)) with
  | [] => Ok []
  | l => dependency (find_preceding_configs nodes) l
  end.

(* ---- ghost_buster ---- *)

Record glink := mk_gl {
  gl_index : Z;
  gl_intf : list string;            (* nodes of the interfaces *)
  gl_count : Z;                     (* node_count *)
  gl_hosts : Z;                     (* host_count, zero when missing *)
  gl_type : string;
  gl_bridge : option string }.

(* links.py:940-947 get_default_link_type *)
Definition get_default_link_type (count hosts : Z) : string :=
  if count >? 2 then "lan" else if negb (hosts =? 0) then "lan" else if count =? 2 then "p2p" else "stub".

(* links.py:971-980 set_link_bridge_name without the length check; [name] creates the name from the link index *)
Definition set_link_bridge_name (name : Z -> string) (l : glink) : glink :=
  if memS (gl_type l) ["p2p"; "loopback"; "vlan_member"]%string then l
  else match gl_bridge l with
       | Some _ => l
       | None => mk_gl (gl_index l) (gl_intf l) (gl_count l) (gl_hosts l) (gl_type l) (Some (name (gl_index l)))
       end.

(* nodes.py:637-651: one link; [managed] are the names of the remaining nodes *)
Definition ghost_link (name : Z -> string) (managed : list string) (l : glink) : glink :=
  let o_cnt := Z.of_nat (length (gl_intf l)) in
  let ifs := filter (fun n => memS n managed) (gl_intf l) in
  let n_cnt := Z.of_nat (length ifs) in
  if n_cnt =? o_cnt then mk_gl (gl_index l) ifs (gl_count l) (gl_hosts l) (gl_type l) (gl_bridge l)
  else
    let count := if gl_count l =? o_cnt then n_cnt else gl_count l in
    let type_ := if o_cnt =? 2 then get_default_link_type count (gl_hosts l) else gl_type l in
    set_link_bridge_name name (mk_gl (gl_index l) ifs count (gl_hosts l) type_ (gl_bridge l)).

(* nodes.py:629-656 ghost_buster; nodes carry the unmanaged flag *)
Definition ghost_buster (name : Z -> string) (nodes : dict bool) (links : list glink) : dict bool * list glink :=
  let nodes' := filter (fun nu => negb (snd nu)) nodes in
  (nodes', filter (fun l => gl_count l >? 0) (map (ghost_link name (dkeys nodes')) links)).
