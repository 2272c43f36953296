(* Model of checks of BGP parameters: netsim/modules/bgp.py check_bgp_parameters and validate_bgp_sessions. Definitions only. *)
From Coq Require Import String Ascii ZArith Bool List.
From Verif Require Import Base Box_Model Dev_Model Types_Model.
Import ListNotations.
Local Open Scope string_scope.
Local Open Scope list_scope.

Inductive berr :=
| NoAS                               (* no AS number *)
| BadAS (e : terror)                 (* must_be_asn *)
| CommType                           (* community is not a string, a list or a dictionary *)
| BadKey (k : string)                (* invalid key in bgp.community, bgp.sessions or bgp.activate *)
| BadList (k : string) (e : terror). (* must_be_list *)

(* options of must_be_list (types.py:437-438) with the true value and valid values of a caller *)
Definition list_opts (tv : option val) (values : list val) : topts := mk_topts (Some (VList [])) (Some (VList [])) None tv values.

(* bgp.py:40-54 and 61-76: loop over keys of a dictionary of lists. In the code, a list with invalid values that are not texts
   stops the program when the error message is built (types.py:200); here it is reported. *)
Definition list_step (good : list string) (o : topts) (st : dict val * list berr) (k : string) : dict val * list berr :=
  if memS k good then
    let r := type_test (must_be_list false) o k (fst st) in (fst r, snd st ++ map (BadList k) (snd r))
  else (fst st, snd st ++ [BadKey k]).
Definition check_lists (good : list string) (o : topts) (d : dict val) : dict val * list berr :=
  fold_left (list_step good o) (dkeys d) (d, []).

(* bgp.py:30-38 *)
Definition community_dict (v : val) : option (dict val) :=
  match v with
  | VStr _ => Some [("ibgp", VList [v]); ("ebgp", VList [v])]
  | VList _ => Some [("ibgp", v); ("ebgp", v)]
  | VDict d => Some d
  | _ => None
  end.

(* bgp.py:17-54 check_bgp_parameters: BGP data of a node and errors; [values]: valid communities *)
Definition check_bgp_parameters (values : list val) (bgp : dict val) : dict val * list berr :=
  if negb (dmem "as" bgp) then (bgp, [NoAS])
  else
    let r := type_test must_be_asn (mk_topts None None None None []) "as" bgp in
    let e := map BadAS (snd r) in
    match dget "community" (fst r) with
    | None => (fst r, e)
    | Some v =>
        match community_dict v with
        | None => (fst r, e ++ [CommType])
        | Some d => let c := check_lists ["ibgp"; "ebgp"] (list_opts None values) d in
                    (dset "community" (VDict (fst c)) (fst r), e ++ snd c)
        end
    end.

(* bgp.py:57 *)
Definition session_types : list val := [VStr "ibgp"; VStr "ebgp"; VStr "localas_ibgp"].

(* bgp.py:59-78 validate_bgp_sessions: sessions, errors and the result; invalid values in a list are reported by must_be_list but do
   not change its result *)
Definition fails (e : berr) : bool := match e with BadKey _ | BadList _ WrongType => true | _ => false end.
Definition validate_bgp_sessions (d : dict val) : dict val * list berr * bool :=
  let r := check_lists ["ipv4"; "ipv6"] (list_opts (Some (VList session_types)) session_types) d in
  (fst r, snd r, negb (existsb fails (snd r))).
