(* Model of lab validation: checks of prefixes (netsim/validate/_common.py) and BGP prefixes on FRR
   (netsim/validate/bgp/frr.py). Definitions only. *)
From Coq Require Import String Ascii ZArith Bool List.
From Verif Require Import Base Mod_Model.
Import ListNotations.
Local Open Scope string_scope.
Local Open Scope list_scope.

Section Framework.
Variable path : Type.

(* result of one check: remaining paths, or an exception; log.Result (true) is success *)
Inductive cres := CPaths (l : list path) | CRaise (ok : bool).

Definition check := string -> list path -> cres.

(* _common.py:66-83 the loop over checks and the end of run_prefix_checks: does the validation succeed?
   [kwargs]: names of requested checks; the values are part of the checks *)
Fixpoint run_checks (st : string) (kwargs : list string) (checks : list (string * check)) (data : list path) : bool :=
  match checks with
  | [] => negb (String.eqb st "missing")
  | (k, f) :: r =>
      if memS k kwargs then
        match f st data with
        | CRaise ok => ok
        | CPaths [] => String.eqb st "missing"
        | CPaths d => if String.eqb st "missing" then false else run_checks st kwargs r d
        end
      else run_checks st kwargs r data
  end.

(* _common.py:44-86 run_prefix_checks with _common.py:26-42 check_for_prefix; [found]: result of the lookup function,
   one path or a list of paths. Not modelled: an invalid prefix, texts of messages. *)
Definition run_prefix_checks (st : string) (kwargs : list string) (checks : list (string * check)) (found : option (list path)) : bool :=
  match found with
  | None => String.eqb st "missing"
  | Some data =>
      if forallb (fun k => memS k (map fst checks)) kwargs then run_checks st kwargs checks data else false
  end.

(* frr.py:121-124 and others: no path is an error unless the prefix should be missing *)
Definition need (st : string) (l : list path) : cres :=
  match l with
  | [] => if String.eqb st "missing" then CPaths [] else CRaise false
  | _ => CPaths l
  end.
End Framework.
Arguments CPaths {path}.
Arguments CRaise {path}.
Arguments need {path}.

(* a BGP path in the FRR output *)
Record fpath := mk_fp {
  f_peer : string;
  f_nh : list string;
  f_best : option bool;                 (* bestpath.overall *)
  f_cluster : option (list string);
  f_comm : dict string;                 (* texts of the communities *)
  f_aspath : string;
  f_segs : list (list Z);
  f_loc : option Z;
  f_med : option Z }.

(* values of the requested checks; [a_extra]: other arguments *)
Record fargs := mk_fa {
  a_peer : option string;
  a_nh : option string;
  a_best : option bool;
  a_cluster : option string;
  a_comm : option (dict string);
  a_elems : option (list Z);            (* one value is a list of one value *)
  a_aspath : option string;
  a_loc : option Z;
  a_med : option Z;
  a_extra : list string }.

(* text before the first slash *)
Fixpoint before_slash (s : string) : string :=
  match s with
  | EmptyString => EmptyString
  | String c r => if Ascii.eqb c "/" then EmptyString else String c (before_slash r)
  end.

Definition opt_eqb {A} (eqb : A -> A -> bool) (a : option A) (b : A) : bool := match a with Some x => eqb x b | None => false end.

(* frr.py:190-212 AS numbers of a path are removed from the list of expected numbers *)
Definition left_over (segs : list (list Z)) (value : list Z) : list Z :=
  fold_left (fun todo seg => fold_left (fun t asn => if memZ asn t then filter (fun v => negb (Z.eqb v asn)) t else t) seg todo) segs value.

(* frr.py:149-167 check_community; bgp/__init__.py:12-18 names of communities *)
Definition community_kw : list string := ["community"; "largeCommunity"; "extendedCommunity"].

Definition comm_ok (data : list fpath) (c v : string) : bool :=
  existsb (fun p => match dget c (f_comm p) with Some s => contains v s | None => false end) data.

Fixpoint comm_loop (st : string) (data : list fpath) (l : dict string) : bool :=
  match l with
  | [] => true
  | (c, v) :: r =>
      if negb (memS c community_kw) then false
      else if String.eqb st "present" && negb (comm_ok data c v) then false
      else if String.eqb st "missing" && comm_ok data c v then false
      else comm_loop st data r
  end.

Definition keep {A} (f : A -> fpath -> bool) (o : option A) (d : list fpath) : list fpath :=
  match o with Some v => filter (f v) d | None => d end.

(* frr.py:235-259 the checks of valid_bgp_prefix in their order: filter_bgp_peer (102-103), filter_bgp_nh (110-124),
   filter_best (129-130), check_cluster_id (136-144), check_community (149-167), check_as_elements (190-212),
   check_aspath (172-185), check_locpref (217-218), check_med (223-224) *)
Definition frr_checks (a : fargs) : list (string * check fpath) :=
  [("peer", fun _ d => CPaths (keep (fun v p => String.eqb (f_peer p) v) (a_peer a) d));
   ("nh", fun st d => need st (keep (fun v p => existsb (fun h => String.eqb h (before_slash v)) (f_nh p)) (a_nh a) d));
   ("best", fun _ d => CPaths (keep (fun v p => opt_eqb Bool.eqb (f_best p) v) (a_best a) d));
   ("clusterid", fun st d => need st (keep (fun v p => match f_cluster p with Some l => memS v l | None => false end) (a_cluster a) d));
   ("community", fun st d => CRaise (comm_loop st d (match a_comm a with Some c => c | None => [] end)));
   ("as_elements", fun st d => need st (keep (fun v p => match left_over (f_segs p) v with [] => true | _ => false end) (a_elems a) d));
   ("aspath", fun st d => need st (keep (fun v p => String.eqb (f_aspath p) v) (a_aspath a) d));
   ("locpref", fun _ d => CPaths (keep (fun v p => opt_eqb Z.eqb (f_loc p) v) (a_loc a) d));
   ("med", fun _ d => CPaths (keep (fun v p => opt_eqb Z.eqb (f_med p) v) (a_med a) d))].

Definition req {A} (k : string) (o : option A) : list string := match o with Some _ => [k] | None => [] end.

(* names of the arguments of valid_bgp_prefix *)
Definition frr_kwargs (a : fargs) : list string :=
  req "peer" (a_peer a) ++ req "nh" (a_nh a) ++ req "best" (a_best a) ++ req "clusterid" (a_cluster a) ++ req "community" (a_comm a)
  ++ req "as_elements" (a_elems a) ++ req "aspath" (a_aspath a) ++ req "locpref" (a_loc a) ++ req "med" (a_med a) ++ a_extra a.

(* frr.py:235-259 valid_bgp_prefix *)
Definition frr_valid_prefix (st : string) (a : fargs) (found : option (list fpath)) : bool :=
  run_prefix_checks fpath st (frr_kwargs a) (frr_checks a) found.
