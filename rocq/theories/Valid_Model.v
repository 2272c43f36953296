(* Model of the attribute validation engine: netsim/data/validate.py. Definitions only.
   Attribute definitions are data trees (Box_Model val) as in the defaults. The individual data types are an argument
   ([types]: the must_be_... functions of data/types.py with their empty and false values), see Types_Model.
   Simplifications: error texts are reduced to kind and path; dictionary keys are strings; the alternate types of an
   attribute given as a single text are taken as a list with one element; resolving extra_attributes is left to the
   caller; _abort and the hints are left out. *)
From Coq Require Import String Ascii ZArith Bool List.
From Verif Require Import Base Box_Model Types_Model.
Import ListNotations.
Local Open Scope string_scope.
Local Open Scope list_scope.

Inductive pstep := PK (k : string) | PI (n : nat).

Inductive verr :=
| EValue (path : list pstep) (e : terror)                  (* wrong type or value *)
| EKey (path : list pstep) (k : string) (e : terror)       (* wrong key *)
| EAttr (path : list pstep) (k : string)                   (* unknown key of a dictionary *)
| EInvalid (path : list pstep) (k : string)                (* unknown attribute of an object *)
| EModule (path : list pstep) (k : string)                 (* attribute of a module that is not enabled *)
| EMissing (path : list pstep) (k : string)                (* required attribute *)
| EConflict (path : list pstep) (a : string) (l : list string)
| ERequires (path : list pstep) (m : string)
| ENotDict (path : list pstep).

(* log.fatal, a python exception, and out of fuel *)
Inductive vres (A : Type) := VOk (a : A) | VFatal | VCrash | VFuel.
Arguments VOk {A} a. Arguments VFatal {A}. Arguments VCrash {A}. Arguments VFuel {A}.

Definition bind {A B} (r : vres A) (g : A -> vres B) : vres B :=
  match r with VOk a => g a | VFatal => VFatal | VCrash => VCrash | VFuel => VFuel end.

(* a data type: the test and the values replacing a missing value and False *)
Record tspec := mk_tspec { ts_test : val -> status; ts_empty : option val; ts_false : option val }.

(* ---- small helpers ---- *)

Definition starts_with (pre s : string) : bool := prefix pre s.
Definition is_internal (k : string) : bool := starts_with "_" k.

(* data/__init__.py:21-28 get_a_list: the strings of a list, or one string *)
Definition str_of (v : val) : list string := match v with VStr s => [s] | _ => [] end.
Definition strings (v : val) : list string := match v with VList l => flat_map str_of l | _ => str_of v end.
Definition strings_at (k : string) (d : dict val) : list string := match dget k d with Some v => strings v | None => [] end.

(* type(data).__name__ of data in a Box *)
Definition type_name (v : val) : string :=
  match v with
  | VNull => "NoneType" | VBool _ => "bool" | VInt _ => "int" | VStr _ => "str" | VList _ => "BoxList" | VDict _ => "Box"
  end.

Definition is_box (v : val) : bool := is_dict v.
Definition entries (v : val) : dict val := match v with VDict d => d | _ => [] end.

(* ---- attribute namespaces ---- *)

(* validate.py:33-39 remove_required_flag *)
Fixpoint remove_required (v : val) : val :=
  match v with
  | VDict d => VDict ((fix go (d : dict val) : dict val :=
      match d with
      | [] => []
      | (k, x) :: r => if String.eqb k "_required" then go r else (k, remove_required x) :: go r
      end) d)
  | _ => v
  end.

(* validate.py:41-68 get_attribute_namespaces; [fuel] counts the passes of the loop, the source allows 100.
   None is the fatal error *)
Fixpoint namespaces_loop (fuel : nat) (first : bool) (attributes : dict val) (todo acc : list string) : option (list string) :=
  match todo with
  | [] => Some acc
  | ns :: r =>
      match fuel with
      | O => None
      | S fuel =>
          match dget ns attributes with
          | None => namespaces_loop fuel false attributes r
                      (if first then (if memS ns acc then acc else acc ++ [ns]) else acc)
          | Some v =>
              namespaces_loop fuel false attributes (r ++ strings_at "_namespace" (entries v))
                (if memS ns acc then acc else acc ++ [ns])
          end
      end
  end.

Definition get_attribute_namespaces (attributes : dict val) (l : list string) : option (list string) :=
  namespaces_loop 100 true attributes l [].

(* validate.py:102-109: the attributes of one namespace; [first] is the first element of the list *)
Definition secondary (attributes : dict val) (ns : string) (v : val) : val :=
  remove_required
    (match dget (ns ++ "_no_propagate")%string attributes with
     | Some np => VDict (filter (fun kv => negb (memS (fst kv) (strings np))) (entries v))
     | None => v
     end).

(* validate.py:77-117 get_valid_attributes: a type name or a dictionary; None is the fatal error. The change of
   [attributes] through shared values is get_valid_effect below *)
Fixpoint valid_loop (attributes : dict val) (first : bool) (l : list string) (valid : val) : option val :=
  match l with
  | [] => Some valid
  | ns :: r =>
      match dget ns attributes with
      | None => valid_loop attributes false r valid
      | Some (VStr t) => if truthy valid then None else Some (VStr t)
      | Some (VDict d) =>
          let add := if first then VDict d else secondary attributes ns (VDict d) in
          let valid1 := merge add valid in
          valid_loop attributes false r
            (match dget (ns ++ "_internal")%string attributes with
             | Some x => merge valid1 x
             | None => valid1
             end)
      | Some _ => None
      end
  end.

Definition get_valid_attributes (attributes : dict val) (l : list string) : option val :=
  valid_loop attributes true l (VDict []).

(* validate.py:102-109: the dictionary comprehension does not copy the values, so the flags are also removed from the
   attribute definitions *)
Definition secondary_effect (attributes : dict val) (ns : string) : dict val :=
  match dget ns attributes, dget (ns ++ "_no_propagate")%string attributes with
  | Some (VDict d), Some np =>
      dset ns (VDict (map (fun kv => if memS (fst kv) (strings np) then kv
                                     else (fst kv, if is_box (snd kv) then remove_required (snd kv) else snd kv)) d)) attributes
  | _, _ => attributes
  end.

Definition get_valid_effect (attributes : dict val) (l : list string) : dict val :=
  match l with [] => attributes | _ :: r => fold_left secondary_effect r attributes end.

(* validate.py:122-131 validate_module_can_be_false *)
Definition can_be (key : string) (attributes : dict val) (l : list string) : bool :=
  existsb (fun x => memS x (strings_at key attributes)) l.

(* ---- checks of one dictionary ---- *)

Definition required (v : val) : bool :=
  match v with VDict d => match dget "_required" d with Some x => truthy x | None => false end | _ => false end.

(* validate.py:137-149 check_required_keys *)
Definition check_required (path : list pstep) (data keys : dict val) : list verr :=
  flat_map (fun kv => if required (snd kv) && negb (dmem (fst kv) data) then [EMissing path (fst kv)] else []) keys.

(* validate.py:394-424 check_valid_with *)
Definition with_list (keys : dict val) (a : string) : option (list string) :=
  match dget a keys with
  | Some (VDict d) => match dget "_valid_with" d with Some l => Some (strings l) | None => None end
  | _ => None
  end.

Fixpoint valid_with_loop (path : list pstep) (keys : dict val) (all attrs reported : list string) : list verr :=
  match attrs with
  | [] => []
  | a :: r =>
      match with_list keys a with
      | None => valid_with_loop path keys all r reported
      | Some ok =>
          if memS a reported then valid_with_loop path keys all r reported
          else
            let inv := filter (fun x => negb (String.eqb x a) && negb (memS x ok) && negb (is_internal x)) all in
            match inv with
            | [] => valid_with_loop path keys all r reported
            | _ => EConflict path a inv :: valid_with_loop path keys all r (reported ++ inv)
            end
      end
  end.

(* the keys of a dictionary type, or the dictionary itself (validate.py:405) *)
Definition keys_of (dt : dict val) : dict val := match dget "_keys" dt with Some v => entries v | None => dt end.

Definition check_valid_with (path : list pstep) (data dt : dict val) : list verr :=
  valid_with_loop path (keys_of dt) (dkeys data) (dkeys data) [].

Section Validate.
Variable topo : dict val.                                  (* topo_attributes *)
Variable types : string -> dict val -> option tspec.       (* validation function of a type with its parameters *)
Variable mattrs : string -> dict val.                      (* topology.defaults[module].attributes *)
Variable mods : list string.                               (* list_of_modules *)

(* validate.py:358-384 transform_validation_shortcuts; None is the fatal error *)
Definition transform (s : val) : option (dict val) :=
  let t := match s with VStr n => match dget n topo with Some x => x | None => s end | _ => s end in
  match t with
  | VStr n => Some [("type", VStr n)]
  | VDict d =>
      if dmem "type" d then Some d
      else Some (dset "_keys" (VDict (filter (fun kv => negb (is_internal (fst kv))) d))
                   (dset "type" (VStr "dict") (filter (fun kv => is_internal (fst kv)) d)))
  | VList l => Some [("type", VStr "list"); ("valid_values", VList l)]
  | _ => None
  end.

(* ---- single values ---- *)

(* types.py:354-413 execute_test without parent: the returned value and the errors *)
Definition alone (t : tspec) (values : list val) (v : val) : val * list terror :=
  match ts_test t v with
  | Valid w => (w, match values with [] => [] | _ => if check_valid_values values w then [] else [InvalidValue] end)
  | BadType => (VNull, [WrongType])
  | BadValue => (VNull, [WrongValue])
  end.

(* types.py:268-302 get_value_to_check for a key that is present: None is a removed value *)
Definition replaced (t : tspec) (create : bool) (tv : option val) (v : val) : option val :=
  let v1 := match v with
            | VNull => match ts_empty t with Some e => if create then e else VNull | None => VNull end
            | _ => v
            end in
  match v1, tv with
  | VBool true, Some x => Some x
  | VBool false, Some _ => ts_false t
  | _, _ => Some v1
  end.

(* types.py:354-413 execute_test with a parent: the new value in the parent, the returned value, the errors *)
Definition in_parent (t : tspec) (create : bool) (tv : option val) (values : list val) (v : val)
  : option val * val * list terror :=
  match replaced t create tv v with
  | None => (None, VNull, [])
  | Some x =>
      match ts_test t x with
      | Valid w => (Some w, w, match values with [] => [] | _ => if check_valid_values values w then [] else [InvalidValue] end)
      | BadType => (Some x, VNull, [WrongType])
      | BadValue => (Some x, VNull, [WrongValue])
      end
  end.

(* validate.py:510-512: the parameters of the validation function *)
Definition params (dt : dict val) : dict val :=
  filter (fun kv => negb (is_internal (fst kv)) && negb (String.eqb (fst kv) "type")) dt.

Definition values_of (dt : dict val) : list val := match dget "valid_values" dt with Some (VList l) => l | _ => [] end.
Definition true_of (dt : dict val) : option val := match dget "true_value" dt with Some VNull => None | x => x end.
Definition create_of (n : string) (dt : dict val) : bool :=
  match dget "create_empty" dt with
  | Some VNull => true
  | Some v => truthy v
  | None => negb (memS n ["dict"; "list"])
  end.

(* validate.py:307-327 validate_alt_type: None - no type matched, Some None - the type name matched, Some (Some w) - a
   validation function accepted the value *)
Fixpoint alt_loop (alts : list string) (v : val) : option val :=
  match alts with
  | [] => None
  | a :: r => match types a [] with
              | None => alt_loop r v
              | Some t => match ts_test t v with Valid w => Some w | _ => alt_loop r v end
              end
  end.
Definition alt_type (alts : list string) (v : val) : option (option val) :=
  if memS (type_name v) alts then Some None
  else match alt_loop alts v with Some w => Some (Some w) | None => None end.

(* validate.py:471-485: the modules an attribute needs and that are not enabled *)
Definition missing_modules (enabled : list string) (dt : dict val) : list string :=
  filter (fun m => negb (memS m enabled)) (strings_at "_requires" dt).

(* validate.py:489-492: a list that should have been a dictionary *)
Definition list_to_dict (dt : dict val) (v : val) : val :=
  match v, dget "_list_to_dict" dt with
  | VList l, Some c => VDict (fold_left (fun d k => dset k c d) (flat_map str_of l) [])
  | _, _ => v
  end.

(* ---- loops over dictionaries: [g] handles one key of the current dictionary ---- *)

Fixpoint each {S : Type} (g : string -> S -> vres (S * list verr)) (ks : list string) (s : S) : vres (S * list verr) :=
  match ks with
  | [] => VOk (s, [])
  | k :: r =>
      bind (g k s) (fun '(s1, e1) => bind (each g r s1) (fun '(s2, e2) => VOk (s2, e1 ++ e2)))
  end.

(* the result of validating one item: the new value (None: removed from its parent), the return value, the errors *)
Definition ires := (option val * val * list verr)%type.

(* one key of a dictionary, ignoring the return value; removing a key while the dictionary is being iterated over is a
   python exception *)
Definition at_key (g : val -> vres ires) (k : string) (d : dict val) : vres (dict val * val * list verr) :=
  match dget k d with
  | None => VOk (d, VBool true, [])
  | Some v => bind (g v) (fun '(o, ret, e) => match o with None => VCrash | Some w => VOk (dset k w d, ret, e) end)
  end.

(* validate.py:157-241 validate_dictionary. [it] validates an item of a dictionary, [at] the attributes of an object *)
Definition dictionary (it : list pstep -> val -> val -> vres ires) (at_ : list pstep -> val -> string -> vres ires)
  (attributes : dict val) (path : list pstep) (data dt : dict val) : vres (dict val * bool * list verr) :=
  bind (match dget "_keytype" dt with
        | None => VOk (true, [])
        | Some (VStr n) =>
            match types n [] with
            | None => VFatal
            | Some t => VOk (forallb (fun k => truthy (fst (alone t [] (VStr k)))) (dkeys data),
                             flat_map (fun k => map (EKey path k) (snd (alone t [] (VStr k)))) (dkeys data))
            end
        | Some _ => VFatal
        end) (fun '(ok0, e0) =>
  bind (match dget "_subtype" dt with
        | None => VOk ((data, ok0), [])
        | Some st =>
            each (fun k '(d, ok) =>
              bind (at_key (fun v => match st with
                                     | VStr n => if dmem n attributes then at_ (path ++ [PK k]) v n else it (path ++ [PK k]) v st
                                     | _ => it (path ++ [PK k]) v st
                                     end) k d)
                (fun '(d1, ret, e) => VOk ((d1, ok && match ret with VBool false => false | _ => true end), e)))
              (dkeys data) (data, ok0)
        end) (fun '((d1, ok1), e1) =>
  match dget "_keys" dt with
  | None => VOk (d1, ok1, e0 ++ e1)
  | Some ks =>
      bind (each (fun k '(d, ok) =>
              match dget k (entries ks) with
              | None => VOk ((d, false), [EAttr path k])
              | Some s => bind (at_key (fun v => it (path ++ [PK k]) v s) k d) (fun '(d1, _, e) => VOk ((d1, ok), e))
              end) (dkeys d1) (d1, ok1)) (fun '((d2, ok2), e2) =>
      if ok2 then
        let e3 := check_required path d2 (entries ks) in
        VOk (d2, match e3 with [] => true | _ => false end, e0 ++ e1 ++ e2 ++ e3)
      else VOk (d2, false, e0 ++ e1 ++ e2))
  end)).

(* validate.py:249-301 validate_list. [it] validates a value without parent *)
Fixpoint elements (it : list pstep -> val -> val -> vres ires) (at_ : list pstep -> val -> string -> vres ires)
  (attributes : dict val) (path : list pstep) (st : val) (n : nat) (l : list val) : vres (list val * bool * list verr) :=
  match l with
  | [] => VOk ([], true, [])
  | v :: r =>
      bind (match st with
            | VStr t => if dmem t attributes
                        then bind (at_ (path ++ [PI n]) v t) (fun '(o, _, e) => VOk (o, VBool true, e))
                        else it (path ++ [PI n]) v st
            | _ => it (path ++ [PI n]) v st
            end) (fun '(o, ret, e) =>
      bind (elements it at_ attributes path st (S n) r) (fun '(r', ok, es) =>
        let w := match o with Some w => w | None => v end in
        VOk (match ret with VBool _ => w | x => x end :: r', ok && match ret with VBool false => false | _ => true end, e ++ es)))
  end.

(* validate.py:445-563 validate_item; [p] tells that the item is in a parent dictionary. The recursive calls are arguments *)
Definition alt_result (dt : dict val) (name : string) (v : val) : option (option val) :=
  match dget "_alt_types" dt with
  | Some alts => if String.eqb (type_name v) name then None else alt_type (strings alts) v
  | None => None
  end.

Definition name_of (dt : dict val) : string := match dget "type" dt with Some (VStr n) => n | _ => "" end.

Definition type_call (p : bool) (t : tspec) (dt : dict val) (v : val) : option val * val * list terror :=
  if p then in_parent t (create_of (name_of dt) dt) (true_of dt) (values_of dt) v
  else (Some v, fst (alone t (values_of dt) v), snd (alone t (values_of dt) v)).

Definition contents (it : bool -> list pstep -> val -> val -> vres ires) (at_ : list pstep -> val -> string -> vres ires)
  (attributes : dict val) (path : list pstep) (dt : dict val) (o : option val) : vres ires :=
  if String.eqb (name_of dt) "dict" then
    match o with
    | Some (VDict d) =>
        bind (dictionary (it true) at_ attributes path d dt)
          (fun '(d', ok, e) => VOk (Some (VDict d'), VBool ok, check_valid_with path d dt ++ e))
    | _ => VCrash
    end
  else if String.eqb (name_of dt) "list" then
    match dget "_subtype" dt with
    | None => VOk (o, VBool true, [])
    | Some st =>
        match o with
        | Some (VList l) =>
            bind (elements (it false) at_ attributes path st 1 l) (fun '(l', ok, e) => VOk (Some (VList l'), VBool ok, e))
        | _ => VCrash
        end
    end
  else VOk (o, VBool true, []).

Definition item_body (it : bool -> list pstep -> val -> val -> vres ires) (at_ : list pstep -> val -> string -> vres ires)
  (attributes : dict val) (enabled : list string) (p : bool) (path : list pstep) (v s : val) : vres ires :=
  match s with
  | VNull => VOk (Some v, VBool true, [])
  | _ =>
      match transform s with
      | None => VFatal
      | Some dt =>
          match missing_modules enabled dt with
          | (_ :: _) as ms => VOk (Some v, VBool false, map (ERequires path) ms)
          | [] =>
              let v1 := if p then list_to_dict dt v else v in
              match alt_result dt (name_of dt) v1 with
              | Some None => VOk (Some v1, VBool true, [])
              | Some (Some w) =>
                  if truthy w then VOk (Some (if p then w else v1), w, []) else VOk (Some v1, VBool true, [])
              | None =>
                  match types (name_of dt) (params dt) with
                  | None => VFatal
                  | Some t =>
                      let '(o, ret, es) := type_call p t dt v1 in
                      if truthy ret then
                        bind (contents it at_ attributes path dt o)
                          (fun '(o', ret', e) => VOk (o', ret', map (EValue path) es ++ e))
                      else VOk (o, ret, map (EValue path) es)
                  end
              end
          end
      end
  end.

(* validate.py:649-698: one attribute of an object *)
Definition attr_step (it : bool -> list pstep -> val -> val -> vres ires)
  (sub : string -> list pstep -> val -> list string -> vres ires)
  (attributes : dict val) (enabled : list string) (inside : bool) (path : list pstep) (ns ignored : list string)
  (valid : dict val) (k : string) (d : dict val) : vres (dict val * list verr) :=
  if existsb (fun i => starts_with i k) ignored then VOk (d, [])
  else match dget k valid with
       | Some s => bind (at_key (fun x => it true (path ++ [PK k]) x s) k d) (fun '(d1, _, e) => VOk (d1, e))
       | None =>
           if memS k enabled && negb inside then
             match dget k d with
             | None => VOk (d, [])
             | Some x =>
                 if match x with
                    | VBool false => can_be "can_be_false" attributes ns
                    | VBool true => can_be "can_be_true" (mattrs k) ns
                    | _ => false
                    end then VOk (d, [])
                 else
                   bind (sub k (path ++ [PK k]) x ns)
                     (fun '(o, ret, e) =>
                        VOk (dset k (match x with VNull => ret | _ => match o with Some w => w | None => x end end) d, e))
             end
           else if memS k mods && negb inside then VOk (d, [EModule path k])
           else VOk (d, [EInvalid path k])
       end.

(* validate.py:574-704 validate_attributes: [inside] tells that the attributes of a module are being checked *)
Definition attrs_body (it : bool -> list pstep -> val -> val -> vres ires)
  (sub : string -> list pstep -> val -> list string -> vres ires)
  (attributes : dict val) (enabled : list string) (inside : bool) (path : list pstep) (v : val) (l ignored : list string)
  : vres ires :=
  match get_attribute_namespaces attributes l with
  | None => VFatal
  | Some ns =>
      match get_valid_attributes attributes ns with
      | None => VFatal
      | Some (VStr t) =>
          match types t [] with
          | None => VFatal
          | Some ts => VOk (Some v, v, map (EValue path) (snd (alone ts [] v)))
          end
      | Some valid =>
          match v with
          | VNull => VOk (Some v, VDict [], [])
          | VDict data =>
              bind (each (attr_step it sub attributes enabled inside path ns ignored (entries valid)) (dkeys data) data)
                (fun '(d', e) =>
                   VOk (Some (VDict d'), VNull,
                        check_required path data (entries valid) ++ check_valid_with path data (entries valid) ++ e))
          | _ => VOk (Some v, VNull, [ENotDict path])
          end
      end
  end.

Inductive call :=
| CItem (p : bool) (path : list pstep) (v s : val)
| CAttrs (path : list pstep) (v : val) (l : list string) (ignored : list string).

(* the two functions call each other *)
Fixpoint run (fuel : nat) (attributes : dict val) (enabled : list string) (inside : bool) (c : call) : vres ires :=
  match fuel with
  | O => VFuel
  | S fuel =>
      let it := fun p path v s => run fuel attributes enabled inside (CItem p path v s) in
      match c with
      | CItem p path v s =>
          item_body it (fun path v n => run fuel attributes enabled inside (CAttrs path v [n] ["_"])) attributes enabled p path v s
      | CAttrs path v l ignored =>
          attrs_body it (fun k path v ns => run fuel (mattrs k) enabled true (CAttrs path v ns ["_"]))
            attributes enabled inside path v l ignored
      end
  end.
End Validate.

(* validate.py:727-743 get_object_attributes: [defaults] maps an object type to its objects; the objects without
   attributes accept anything *)
Definition add_attr (kw o : string) (v : val) (attrs : dict (dict val)) : dict (dict val) :=
  dset kw (dset o v (match dget kw attrs with Some d => d | None => [] end)) attrs.

Definition object_attributes (attrs : dict (dict val)) (o : string * dict val) : dict (dict val) :=
  match dget "attributes" (snd o) with
  | Some a => fold_left (fun acc kv => add_attr (fst kv) (fst o) (snd kv) acc) (entries a) attrs
  | None => fold_left (fun acc kw => add_attr kw (fst o) VNull acc) ["node"; "link"; "interface"] attrs
  end.

Definition get_object_attributes (l : list string) (defaults : dict (dict (dict val))) : dict (dict val) :=
  fold_left (fun acc t => match dget t defaults with Some os => fold_left object_attributes os acc | None => acc end) l [].
