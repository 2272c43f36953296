(* Model of reading a topology with its defaults: netsim/utils/read.py, the command line arguments, the
   plugin part of netsim/augment/plugin.py and netsim/augment/topology.py:adjust_global_parameters.
   Definitions only. YAML files are dictionaries of values given from outside, as are the matching of file
   patterns, absolute paths, the conversion of strings to integers and the loading of python modules.
   Not modelled: the cache of YAML files (a cached file is a copy of the file), printouts, keys with dots
   in YAML files, the normalization of defaults.sources in the topology, and setting a value below a value
   that is not a dictionary (Box creates a key with dots). *)
From Coq Require Import String Ascii ZArith Bool List.
From Verif Require Import Base Box_Model Text_Model Sort_Model.
Import ListNotations.
Local Open Scope string_scope.
Local Open Scope list_scope.

(* the strings of a list *)
Definition strings (l : list val) : list string := flat_map (fun v => match v with VStr s => [s] | _ => [] end) l.

(* ---------- _include and _top ---------- *)

Inductive ierr := INoFile (item : string) | INoRead (file : string).

(* file name without directory and extension *)
Section Include.
Variable stem : string -> string.
Variable glob : string -> list string.              (* files matching an item of _include, sorted *)
Variable rd : string -> option (dict val).          (* contents of a file *)

(* utils/read.py:67-71 include_yaml: an item of _top *)
Definition add_top (d : dict val) (kv : string * val) : dict val :=
  match dget (fst kv) d with
  | None => dset (fst kv) (snd kv) d
  | Some x => if is_dict (snd kv) && is_dict x then dset (fst kv) (merge x (snd kv)) d else d
  end.

(* utils/read.py:66-76 include_yaml: one file; _top is a dictionary *)
Definition insert_file (d : dict val) (f : string) (y : dict val) : dict val :=
  let d1 := match dget "_top" y with Some (VDict t) => fold_left add_top t d | _ => d end in
  dset (stem f) (VDict (dpop "_top" y)) d1.

(* utils/read.py:60-76 include_yaml: the files matching an item *)
Fixpoint include_files (fs : list string) (d : dict val) : result ierr (dict val) :=
  match fs with
  | [] => Ok d
  | f :: r => match rd f with
              | None => Err (INoRead f)
              | Some y => include_files r (insert_file d f y)
              end
  end.

(* utils/read.py:49-76 include_yaml: the items of _include *)
Fixpoint include_items (l : list string) (d : dict val) : result ierr (dict val) :=
  match l with
  | [] => Ok d
  | i :: r => match glob i with
              | [] => Err (INoFile i)
              | fs => match include_files fs d with
                      | Ok d1 => include_items r d1
                      | Err e => Err e
                      end
              end
  end.

(* utils/read.py:49 include_yaml: _include is a list of strings *)
Definition include_list (v : val) : list string := match v with VList l => strings l | _ => [] end.

(* utils/read.py:33-78 include_yaml *)
Fixpoint include_yaml (v : val) : result ierr val :=
  match v with
  | VDict d =>
      match (fix go (d : list (string * val)) : result ierr (dict val) :=
               match d with
               | [] => Ok []
               | (k, x) :: r =>
                   match include_yaml x with
                   | Err e => Err e
                   | Ok x' => match go r with Ok r' => Ok ((k, x') :: r') | Err e => Err e end
                   end
               end) d with
      | Err e => Err e
      | Ok d1 =>
          match dget "_include" d1 with
          | None => Ok (VDict d1)
          | Some i => match include_items (include_list i) d1 with
                      | Ok d2 => Ok (VDict (dpop "_include" d2))
                      | Err e => Err e
                      end
          end
      end
  | _ => Ok v
  end.
End Include.

(* utils/read.py:92-139 read_yaml: a file with everything it includes; [files] - contents of files, [glob f] -
   the files matching an item of _include in file f. None - no such file, or an error in an included file. *)
Fixpoint read_yaml (stem : string -> string) (glob : string -> string -> list string) (files : string -> option (dict val))
  (fuel : nat) (f : string) : option (dict val) :=
  match fuel with
  | O => None
  | S n =>
      match files f with
      | None => None
      | Some d => match include_yaml stem (glob f) (read_yaml stem glob files n) (VDict d) with
                  | Ok (VDict d') => Some d'
                  | _ => None
                  end
      end
  end.

(* ---------- sources of defaults ---------- *)

(* utils/read.py:17-18 *)
Definition USER_DEFAULTS := ["./topology-defaults.yml"; "~/.netlab.yml"; "~/topology-defaults.yml"].
Definition SYSTEM_DEFAULTS := ["/etc/netlab/defaults.yml"; "package:topology-defaults.yml"].

(* data/types.py:437-453 must_be_list: the list for a value of defaults.sources *)
Definition source_list (true_value : list string) (v : option val) : list string :=
  match v with
  | Some (VList l) => strings l
  | Some (VStr s) => [s]
  | Some (VBool true) => true_value
  | _ => []
  end.

(* utils/read.py:162-206 build_defaults_list; [src k] - the value of defaults.sources.k, [user], [system] -
   the arguments. A true value of defaults.sources.extra raises an exception and is not modelled. *)
Definition build_defaults_list (src : string -> option val) (user system : option (list string)) : list string :=
  match source_list (USER_DEFAULTS ++ SYSTEM_DEFAULTS) (src "list") with
  | (_ :: _) as l => l
  | [] =>
      let u := match user with Some l => l | None => USER_DEFAULTS end in
      let s := match system with Some l => l | None => SYSTEM_DEFAULTS end in
      source_list [] (src "extra")
      ++ match source_list u (src "user") with [] => u | l => l end
      ++ match source_list s (src "system") with [] => s | l => l end
  end.

Section Load.
Variable rd : string -> option (dict val).          (* contents of a YAML file with its includes *)
Variable abs : string -> string.                    (* absolute path, relative to the topology file *)

(* utils/read.py:267-270 load: the name of a file with defaults *)
Definition source_name (f : string) : string := if prefix "package:" f then f else abs f.

(* utils/read.py:141-145 include_defaults, 266-272 load *)
Definition add_source (st : val * list string) (f : string) : val * list string :=
  match rd (source_name f) with
  | Some ((_ :: _) as d) => (merge (VDict d) (fst st), snd st ++ [source_name f])
  | _ => st
  end.

Definition add_sources (l : list string) (st : val * list string) : val * list string := fold_left add_source l st.
End Load.

(* Box.__setitem__ with a key with dots; None - a value on the way is not a dictionary *)
Fixpoint set_path (p : list string) (v t : val) : option val :=
  match p with
  | [] => Some v
  | k :: r =>
      match t with
      | VDict d => match set_path r v (match dget k d with Some x => x | None => VDict [] end) with
                   | Some x => Some (VDict (dset k x d))
                   | None => None
                   end
      | _ => None
      end
  end.

Definition path_of (k : string) : list string := split "." k.

(* utils/read.py:215-230 include_environment_defaults: variables with their values *)
Fixpoint env_defaults (env : list (string * val)) (t : val) : option val :=
  match env with
  | [] => Some t
  | (n, v) :: r =>
      match env_key n with
      | None => env_defaults r t
      | Some k => match set_path (path_of k) v t with Some t1 => env_defaults r t1 | None => None end
      end
  end.

(* utils/read.py:239-277 load: the topology with defaults; [topo] - the name of the topology file *)
Definition load (rd : string -> option (dict val)) (abs : string -> string) (user system : option (list string))
  (env : list (string * val)) (topo : string) (t : val) : option (val * list string) :=
  let d := match lookup ["defaults"] t with Some x => x | None => VDict [] end in
  let l := build_defaults_list (fun k => lookup ["defaults"; "sources"; k] t) user system in
  let (d1, input) := add_sources rd abs l (d, [topo]) in
  match (match user with Some [] => Some d1 | _ => env_defaults env d1 end) with
  | Some d2 => match set_path ["defaults"] d2 t with Some t' => Some (t', input) | None => None end
  | None => None
  end.

(* ---------- command line arguments ---------- *)

Record cli := mk_cli {
  c_device : option string;
  c_provider : option string;
  c_plugin : list string;
  c_set : list string
}.

Inductive cerr :=
| CFormat (s : string)            (* ValueError: not exactly one equals sign *)
| CPath (p : list string)         (* the value cannot be set *)
| CPlugin.                        (* the plugins are not a list *)

Section Cli.
Variable as_int : string -> option Z.               (* int(v) *)

(* utils/read.py:287-296 transform_cli_value *)
Definition cli_value (s : string) : val :=
  match as_int s with
  | Some z => VInt z
  | None => if String.eqb (lower s) "true" then VBool true
            else if String.eqb (lower s) "false" then VBool false
            else VStr s
  end.

Definition set_or (p : list string) (v t : val) : result cerr val :=
  match set_path p v t with Some t' => Ok t' | None => Err (CPath p) end.

(* utils/read.py:316-338 add_cli_args: the settings *)
Fixpoint cli_settings (l : list string) (t : val) : result cerr val :=
  match l with
  | [] => Ok t
  | s :: r =>
      match split "=" s with
      | [k; v] => match set_or (path_of k) (cli_value v) t with
                  | Ok t1 => cli_settings r t1
                  | Err e => Err e
                  end
      | _ => Err (CFormat s)
      end
  end.

(* utils/read.py:305-307 add_cli_args: the options of a provider *)
Fixpoint provider_options (p : string) (l : list string) (t : val) : result cerr val :=
  match l with
  | [] => Ok t
  | e :: r => match set_or (["defaults"; "providers"] ++ path_of p ++ path_of e) (VBool true) t with
              | Ok t1 => provider_options p r t1
              | Err x => Err x
              end
  end.

(* utils/read.py:302-307 add_cli_args: the provider *)
Definition cli_provider (a : string) (t : val) : result cerr val :=
  match split ":" a with
  | [] => Ok t
  | p :: opts =>
      match set_or ["provider"] (VStr p) t with
      | Ok t1 => provider_options p (flat_map (split ",") opts) t1
      | Err e => Err e
      end
  end.

(* utils/read.py:309-314 add_cli_args: plugins; a scalar in the topology becomes a list *)
Definition cli_plugin (l : list string) (t : val) : result cerr val :=
  match l with
  | [] => Ok t
  | _ =>
      let add old := set_or ["plugin"] (VList (old ++ map VStr l)) t in
      match lookup ["plugin"] t with
      | None | Some VNull | Some (VBool false) => add []
      | Some (VList x) => add x
      | Some (VDict _) => Err CPlugin
      | Some x => add [x]
      end
  end.

Definition bind {A} (r : result cerr A) (f : A -> result cerr A) : result cerr A :=
  match r with Ok a => f a | Err e => Err e end.

(* utils/read.py:298-338 add_cli_args *)
Definition add_cli_args (c : cli) (t : val) : result cerr val :=
  bind (bind (bind
    (match c_device c with Some d => set_or ["defaults"; "device"] (VStr d) t | None => Ok t end)
    (fun t => match c_provider c with Some p => cli_provider p t | None => Ok t end))
    (cli_plugin (c_plugin c)))
    (cli_settings (c_set c)).
End Cli.

(* ---------- the provider ---------- *)

Inductive perr := PMissing | PNotString | PUnknown (p : string).

(* augment/topology.py:62-93 adjust_global_parameters: the provider and the topology *)
Definition adjust_provider (t : val) : result perr val :=
  let v := match lookup ["provider"] t with
           | Some v => Some v
           | None => lookup ["defaults"; "provider"] t
           end in
  match v with
  | None => Err PMissing
  | Some v =>
      if negb (truthy v) then Err PMissing
      else match v with
           | VStr p =>
               match lookup ["defaults"; "providers"; p] t with
               | None => Err (PUnknown p)
               | Some pd =>
                   let t1 := match set_path ["provider"] (VStr p) t with Some x => x | None => t end in
                   let t2 := match set_path ["defaults"; "provider"] (VStr p) t1 with Some x => x | None => t1 end in
                   match lookup ["addressing"] pd with
                   | None => Ok t2
                   | Some a =>
                       let old := match lookup ["defaults"; "addressing"] t2 with Some x => x | None => VDict [] end in
                       Ok (match set_path ["defaults"; "addressing"] (merge old a) t2 with Some x => x | None => t2 end)
                   end
               end
           | _ => Err PNotString
           end
  end.

(* ---------- plugins ---------- *)

(* augment/plugin.py:28-40 merge_plugin_defaults, without requests to copy definitions *)
Definition merge_plugin_defaults (p : dict val) (d : val) : val :=
  match p with
  | [] => d
  | _ =>
      let d1 := merge (VDict (dpop "important" p)) d in
      match dget "important" p with Some i => merge d1 i | None => d1 end
  end.

(* what is known about a plugin in a directory: another plugin it is redirected to, defaults, metadata *)
Record pmod := mk_pmod {
  m_redirect : option string;
  m_defaults : dict val;
  m_requires : list string;
  m_after : list string
}.

(* the state of the loader: plugin names, loaded plugins, defaults *)
Record pstate := mk_ps { p_names : list string; p_mods : list pmod; p_defaults : val }.

Inductive plerr := PLoad (name : string).

Section Plugins.
Variable find : string -> string -> option pmod.    (* the module in a directory *)

(* augment/plugin.py:42-106 load_plugin_from_path; [fuel] - length of a chain of redirections *)
Fixpoint load_plugin (fuel : nat) (path name : string) (st : list string * val) : option pmod * (list string * val) :=
  match find path name with
  | None => (None, st)
  | Some m =>
      match m_redirect m, fuel with
      | Some r, S n => load_plugin n path r (map (fun p => if String.eqb p name then r else p) (fst st), snd st)
      | Some _, O => (None, st)
      | None, _ => (Some m, (fst st, merge_plugin_defaults (m_defaults m) (snd st)))
      end
  end.

(* augment/plugin.py:196-199 init: the search path *)
Fixpoint search_plugin (fuel : nat) (paths : list string) (name : string) (st : list string * val)
  : option pmod * (list string * val) :=
  match paths with
  | [] => (None, st)
  | p :: r => match load_plugin fuel p name st with
              | (Some m, st1) => (Some m, st1)
              | (None, st1) => search_plugin fuel r name st1
              end
  end.

(* augment/plugin.py:195-208 init: all plugins *)
Fixpoint load_plugins (fuel : nat) (paths : list string) (l : list string) (st : pstate) : pstate * list plerr :=
  match l with
  | [] => (st, [])
  | n :: r =>
      match search_plugin fuel paths n (p_names st, p_defaults st) with
      | (Some m, (ns, d)) => load_plugins fuel paths r (mk_ps ns (p_mods st ++ [m]) d)
      | (None, (ns, d)) => let (st2, e) := load_plugins fuel paths r (mk_ps ns (p_mods st) d) in (st2, PLoad n :: e)
      end
  end.

(* augment/plugin.py:118-130 sort_plugins; with duplicate names the last module is used for all of them *)
Fixpoint pmap (names : list string) (mods : list pmod) (acc : dict pmod) : dict pmod :=
  match names, mods with
  | n :: r, m :: s => pmap r s (dset n m acc)
  | _, _ => acc
  end.

Definition sort_plugins (names : list string) (mods : list pmod) : result sort_error (list string * list (option pmod)) :=
  let pm := pmap names mods [] in
  match dependency (fun p => match dget p pm with Some m => m_requires m ++ m_after m | None => [] end) names with
  | Ok out => Ok (out, map (fun p => dget p pm) out)
  | Err e => Err e
  end.

(* augment/plugin.py:185-213 init: names, modules, defaults, or the errors; [own] - topology.plugin, [def] - defaults.plugin *)
Inductive pinit := PErrors (e : list plerr) | PLoop | PDone (names : list string) (mods : list (option pmod)) (d : val).

Definition init_plugins (fuel : nat) (paths own def : list string) (d : val) : pinit :=
  let names := own ++ def in
  let (st, e) := load_plugins fuel paths names (mk_ps names [] d) in
  match e with
  | [] => match sort_plugins (p_names st) (p_mods st) with
          | Ok (ns, ms) => PDone ns ms (p_defaults st)
          | Err _ => PLoop
          end
  | _ => PErrors e
  end.
End Plugins.

(* augment/plugin.py:225-241 plugin_requires_check: the missing plugins and modules *)
Definition missing_requirements (plugins modules : list string) (m : pmod) : list string :=
  filter (fun r => negb (memS r plugins) && negb (memS r modules)) (m_requires m).

(* ---------- copies of attribute definitions ---------- *)

(* augment/config.py:17-34 copy_datatypes *)
Definition copy_datatypes (parent child : option val) (copy skip : list string) : option val :=
  match parent, child with
  | Some (VDict p), Some (VDict c) =>
      Some (VDict (map (fun '(k, v) =>
        (k, if (match copy with [] => false | _ => negb (memS k copy) end) || memS k skip then v
            else match v, dget k p with VNull, Some x => x | _, _ => v end)) c))
  | _, _ => child
  end.

Definition opt_set (k : string) (o : option val) (d : dict val) : dict val := match o with Some v => dset k v d | None => d end.

(* augment/config.py:36-55 adjust_attributes *)
Definition adjust_attributes (attr : dict val) (no_propagate link_no_propagate node_copy : list string) : dict val :=
  let a1 := opt_set "node" (copy_datatypes (dget "global" attr) (dget "node" attr) [] no_propagate) attr in
  let a2 := opt_set "interface" (copy_datatypes (dget "link" a1) (dget "interface" a1) [] link_no_propagate) a1 in
  match node_copy with
  | [] => a2
  | _ => opt_set "interface" (copy_datatypes (dget "node" a2) (dget "interface" a2) node_copy []) a2
  end.

(* errors in requests to copy attributes *)
Inductive aerr := ANoSource (ns name source : string) | ABadSource (ns name source : string).

Definition put (ns name : string) (v : val) (attr : dict val) : dict val :=
  match dget ns attr with
  | Some (VDict d) => dset ns (VDict (dset name v d)) attr
  | _ => attr
  end.

(* augment/config.py:71 copy_merge_attributes: the namespace in a request *)
Definition copy_source (a : dict val) : option val :=
  let pick k := match dget k a with Some v => if truthy v then Some v else None | None => None end in
  match pick "copy" with Some v => Some v | None => pick "merge" end.

(* augment/config.py:69-88 copy_merge_attributes: one attribute. Reading a missing source attribute creates an
   empty dictionary. Namespaces that are not strings, and merging with a source that is not a dictionary
   (an exception), are not modelled. *)
Definition copy_one (ns name : string) (attr : dict val) : dict val * list aerr :=
  match dget ns attr with
  | Some (VDict d) =>
      match dget name d with
      | Some (VDict a) =>
          match copy_source a with
          | Some (VStr s) =>
              match dget s attr with
              | None => (attr, [ANoSource ns name s])
              | Some (VDict sd) =>
                  let sv := match dget name sd with Some v => v | None => VDict [] end in
                  let attr1 := match dget name sd with Some _ => attr | None => put s name (VDict []) attr end in
                  if dmem "copy" a then (put ns name sv attr1, [])
                  else (put ns name (match merge sv (VDict a) with VDict m => VDict (dpop "merge" m) | x => x end) attr1, [])
              | Some _ => (attr, [ABadSource ns name s])
              end
          | _ => (attr, [])
          end
      | _ => (attr, [])
      end
  | _ => (attr, [])
  end.

Fixpoint copy_names (ns : string) (names : list string) (attr : dict val) : dict val * list aerr :=
  match names with
  | [] => (attr, [])
  | n :: r => let (a1, e1) := copy_one ns n attr in
              let (a2, e2) := copy_names ns r a1 in (a2, e1 ++ e2)
  end.

Fixpoint copy_spaces (l : list string) (attr : dict val) : dict val * list aerr :=
  match l with
  | [] => (attr, [])
  | ns :: r =>
      let (a1, e1) := match dget ns attr with
                      | Some (VDict d) => copy_names ns (dkeys d) attr
                      | _ => (attr, [])
                      end in
      let (a2, e2) := copy_spaces r a1 in (a2, e1 ++ e2)
  end.

(* augment/config.py:64-88 copy_merge_attributes *)
Definition copy_merge_attributes (attr : dict val) : dict val * list aerr := copy_spaces (dkeys attr) attr.

(* ---------- search paths ---------- *)

(* augment/config.py:164-173 adjust_path_list *)
Fixpoint adjust_path_list (append : bool) (adj : val) (paths : dict val) : dict val :=
  match adj with
  | VDict a =>
      (fix go (a : list (string * val)) (paths : dict val) : dict val :=
         match a with
         | [] => paths
         | (k, v) :: r =>
             let p1 :=
               match v with
               | VList l =>
                   match dget k paths with
                   | None => dset k v paths
                   | Some (VList o) => dset k (VList (if append then o ++ l else l ++ o)) paths
                   | Some _ => paths
                   end
               | VDict _ =>
                   match dget k paths with
                   | None => dset k (VDict (adjust_path_list append v [])) paths
                   | Some (VDict pd) => dset k (VDict (adjust_path_list append v pd)) paths
                   | Some _ => paths
                   end
               | _ => paths
               end in
             go r p1
         end) a paths
  | _ => paths
  end.

Definition adjust_with (key : string) (append : bool) (paths : dict val) : dict val :=
  match dget key paths with
  | Some (VDict a) => dpop key (adjust_path_list append (VDict a) paths)
  | _ => paths
  end.

(* augment/config.py:155-162 adjust_paths *)
Definition adjust_paths (paths : dict val) : dict val := adjust_with "append" true (adjust_with "prepend" false paths).
