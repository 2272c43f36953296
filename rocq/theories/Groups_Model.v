(* Model of netsim/augment/groups.py. Definitions only. *)
From Coq Require Import String Ascii Bool List.
From Verif Require Import Base Graph Box_Model.
Import ListNotations.

(* One entry of topology.groups after validation. *)
Record gdata := mk_gdata {
  g_members : list string;
  g_type : string;                       (* gdata.get('type','node') *)
  g_device : option string;
  g_module : option (list string);
  g_node_data : option val;
  g_config : option (list string)
}.

(* topology.groups and topology[<type>s], e.g. names of nodes, vlans, vrfs *)
Record topo := mk_topo {
  t_groups : dict gdata;
  t_objs : string -> list string
}.

Inductive group_error := RecursiveGroup.   (* groups.py:34-38 log.fatal *)

(* list concatenation of results *)
Fixpoint collect {E A} (f : string -> result E (list A)) (l : list string) : result E (list A) :=
  match l with
  | [] => Ok []
  | m :: r =>
      match f m with
      | Err e => Err e
      | Ok x => match collect f r with Ok y => Ok (x ++ y) | Err e => Err e end
      end
  end.

(* groups.py:25-51 group_members; [fuel] is 100 - count. An unknown group gives the empty list
   (and an error message); it cannot occur in recursive calls. *)
Fixpoint members_rec (t : topo) (ty : string) (fuel : nat) (g : string)
  : result group_error (list string) :=
  match dget g (t_groups t) with
  | None => Ok []
  | Some gd =>
      match fuel with
      | O => Err RecursiveGroup
      | S f =>
          if negb (String.eqb (g_type gd) ty) then Ok []
          else collect (fun m =>
                 let direct := if memS m (t_objs t ty) then [m] else [] in
                 if dmem m (t_groups t) then
                   match members_rec t ty f m with
                   | Ok l => Ok (direct ++ l)
                   | Err e => Err e
                   end
                 else Ok direct) (g_members gd)
      end
  end.

Definition group_members (t : topo) (ty : string) (g : string) : result group_error (list string) :=
  members_rec t ty 100 g.

(* groups.py:299-315 check_recursive_chain: Some true = an error is logged and the chain
   returned. [None] is out of fuel (shown unreachable). *)
Fixpoint check_chain (t : topo) (fuel : nat) (chain : list string) (g : string) : option bool :=
  match dget g (t_groups t) with
  | None => Some false
  | Some gd =>
      match fuel with
      | O => None
      | S f =>
          let chain' := chain ++ [g] in
          (fix loop (ms : list string) : option bool :=
             match ms with
             | [] => Some false
             | m :: r =>
                 if memS m chain' then Some true
                 else if dmem m (t_groups t) then
                   match check_chain t f chain' m with
                   | Some true => Some true
                   | None => None
                   | Some false => loop r
                   end
                 else loop r
             end) (g_members gd)
      end
  end.

(* str.startswith('_') *)
Definition underscore (s : string) : bool :=
  match s with String c _ => Ascii.eqb c "_" | EmptyString => false end.

(* groups.py:317-322 check_recursive_groups: was an error logged? *)
Fixpoint check_recursive_list (t : topo) (names : list string) : option bool :=
  match names with
  | [] => Some false
  | g :: r =>
      if underscore g then check_recursive_list t r
      else match check_chain t (S (length (t_groups t))) [] g with
           | Some true => Some true
           | None => None
           | Some false => check_recursive_list t r
           end
  end.

Definition check_recursive_groups (t : topo) : option bool :=
  check_recursive_list t (dkeys (t_groups t)).

(* groups.py:333-340 one sweep over the sorted names of the remaining groups *)
Fixpoint sweep (keys : list string) (rem : dict gdata) : list string * dict gdata :=
  match keys with
  | [] => ([], rem)
  | g :: r =>
      let blocked := match dget g rem with
                     | Some gd => existsb (fun m => dmem m rem) (g_members gd)
                     | None => true
                     end in
      if blocked then sweep r rem
      else let (s, rem') := sweep r (dpop g rem) in (g :: s, rem')
  end.

(* groups.py:332-342 the while loop; None = the loop does not end within [fuel] sweeps *)
Fixpoint topsort_loop (fuel : nat) (rem : dict gdata) : option (list string) :=
  match rem with
  | [] => Some []
  | _ =>
      match fuel with
      | O => None
      | S f =>
          let (s, rem') := sweep (sortS (dkeys rem)) rem in
          match topsort_loop f rem' with
          | Some l => Some (s ++ l)
          | None => None
          end
      end
  end.

(* groups.py:324-342 reverse_topsort *)
Definition real_groups (t : topo) : dict gdata :=
  filter (fun e => negb (underscore (fst e))) (t_groups t).

Definition reverse_topsort (t : topo) : option (list string) :=
  topsort_loop (length (real_groups t)) (real_groups t).

(* ---- copying group data into nodes ---- *)

(* Result of a copy: groups not sortable (endless loop), recursion fatal error, or the nodes *)
Inductive copy_error := NoOrder | Recursive | BadConfig.

(* node attributes set from groups: device and module list *)
Record nodedm := mk_nodedm { nd_device : option string; nd_module : option (list string) }.

(* groups.py:372-374 add missing modules *)
Fixpoint add_missing (ms : list string) (have : list string) : list string :=
  match ms with
  | [] => have
  | m :: r => add_missing r (if memS m have then have else have ++ [m])
  end.

(* groups.py:366-374 one node *)
Definition apply_dm (gd : gdata) (n : nodedm) : nodedm :=
  mk_nodedm
    (match nd_device n with Some d => Some d | None => g_device gd end)
    (match g_module gd with
     | None => nd_module n
     | Some ms => Some (add_missing ms (match nd_module n with Some l => l | None => [] end))
     end).

Definition update {A} (f : A -> A) (nodes : dict A) (name : string) : dict A :=
  match dget name nodes with
  | None => nodes
  | Some x => dset name (f x) nodes
  end.

(* groups.py:347-377 copy_group_device_module: also returns the groups for which the
   "no direct or indirect members" error is logged. Simplification: no default groups. *)
Fixpoint copy_dm (t : topo) (order : list string) (nodes : dict nodedm)
  : result copy_error (list string * dict nodedm) :=
  match order with
  | [] => Ok ([], nodes)
  | g :: r =>
      match dget g (t_groups t) with
      | None => copy_dm t r nodes
      | Some gd =>
          match g_device gd, g_module gd with
          | None, None => copy_dm t r nodes
          | _, _ =>
              match group_members t "node" g with
              | Err _ => Err Recursive
              | Ok [] => match copy_dm t r nodes with
                         | Ok (errs, ns) => Ok (g :: errs, ns)
                         | Err e => Err e
                         end
              | Ok ms => copy_dm t r (fold_left (update (apply_dm gd)) ms nodes)
              end
          end
      end
  end.

Definition copy_group_device_module (t : topo) (nodes : dict nodedm)
  : result copy_error (list string * dict nodedm) :=
  match reverse_topsort t with
  | None => Err NoOrder
  | Some order => copy_dm t order nodes
  end.

(* groups.py:405-409: drop node data of topology modules the node does not use *)
Definition strip_modules (topo_modules : list string) (node data : val) : val :=
  match lookup ["module"%string] node, data with
  | Some (VList ms), VDict d =>
      VDict (filter (fun e => negb (memS (fst e) topo_modules) ||
                              existsb (fun m => match m with VStr s => String.eqb s (fst e) | _ => false end) ms) d)
  | _, _ => data
  end.

(* groups.py:400-415 one member. Simplification: nodes are dictionaries at this point; anything
   else is left alone. *)
Definition apply_data (topo_modules : list string) (data node : val) : val :=
  match node with
  | VDict _ => merge (strip_modules topo_modules node data) node
  | _ => node
  end.

(* groups.py:385-415 copy_group_node_data, for node groups and an empty prefix *)
Fixpoint copy_data (t : topo) (topo_modules : list string) (order : list string) (nodes : dict val)
  : result copy_error (dict val) :=
  match order with
  | [] => Ok nodes
  | g :: r =>
      match dget g (t_groups t) with
      | None => copy_data t topo_modules r nodes
      | Some gd =>
          match g_node_data gd with
          | None => copy_data t topo_modules r nodes
          | Some data =>
              match group_members t "node" g with
              | Err _ => Err Recursive
              | Ok ms => copy_data t topo_modules r (fold_left (update (apply_data topo_modules data)) ms nodes)
              end
          end
      end
  end.

Definition copy_group_node_data (t : topo) (topo_modules : list string) (nodes : dict val)
  : result copy_error (dict val) :=
  match reverse_topsort t with
  | None => Err NoOrder
  | Some order => copy_data t topo_modules order nodes
  end.

(* ---- config templates ---- *)

(* groups.py:599-617 phase 1: prepend group templates to the node list *)
Fixpoint config_phase1 (t : topo) (order : list string) (nodes : dict (list string))
  : result copy_error (dict (list string)) :=
  match order with
  | [] => Ok nodes
  | g :: r =>
      match dget g (t_groups t) with
      | None => config_phase1 t r nodes
      | Some gd =>
          match g_config gd with
          | None => config_phase1 t r nodes
          | Some cfg =>
              match group_members t "node" g with
              | Err _ => Err Recursive
              | Ok ms =>
                  config_phase1 t r
                    (map (fun e => if memS (fst e) ms || String.eqb g "all"
                                   then (fst e, cfg ++ snd e) else e) nodes)
              end
          end
      end
  end.

(* groups.py:632-640 process removal requests; None is the IndexError raised by c[0] on an
   empty template name *)
Fixpoint removal_loop (l : list string) (acc : list string) : option (list string) :=
  match l with
  | [] => Some acc
  | c :: r =>
      if String.eqb c "-" then removal_loop r []
      else match c with
           | EmptyString => None
           | String a rest =>
               if Ascii.eqb a "-"
               then removal_loop r (filter (fun x => negb (String.eqb x rest)) acc)
               else removal_loop r (acc ++ [c])
           end
  end.

(* groups.py:584-645 node_config_templates. A node without templates is represented by the
   empty list both before and after. *)
Fixpoint config_phase2 (nodes : dict (list string)) : result copy_error (dict (list string)) :=
  match nodes with
  | [] => Ok []
  | (n, l) :: r =>
      match removal_loop l [], config_phase2 r with
      | Some x, Ok y => Ok ((n, x) :: y)
      | None, _ => Err BadConfig
      | _, Err e => Err e
      end
  end.

Definition node_config_templates (t : topo) (nodes : dict (list string))
  : result copy_error (dict (list string)) :=
  match reverse_topsort t with
  | None => Err NoOrder
  | Some order =>
      match config_phase1 t order nodes with
      | Err e => Err e
      | Ok ns => config_phase2 ns
      end
  end.
