(* Model of lab validation of BGP neighbors on FRR and EOS (netsim/validate/bgp/frr.py, eos.py, netsim/validate/_common.py) and
   of IS-IS neighbors on FRR (netsim/validate/isis/frr.py). An exception is a failed validation (false). Definitions only. *)
From Coq Require Import String Ascii ZArith Bool List.
From Verif Require Import Base Mod_Model.
Import ListNotations.
Local Open Scope string_scope.
Local Open Scope list_scope.

(* address of a BGP neighbor; an unnumbered one is True *)
Inductive naddr := NText (s : string) | NTrue.

Record bngb := mk_bn { bn_name : string; bn_af : dict naddr }.

(* _common.py:10-18 get_bgp_neighbor_id *)
Fixpoint neighbor_id (ngb : list bngb) (id af : string) : option naddr :=
  match ngb with
  | [] => None
  | n :: r =>
      if negb (String.eqb (bn_name n) id) then neighbor_id r id af
      else match dget af (bn_af n) with
           | None => neighbor_id r id af
           | Some a => Some a
           end
  end.

(* expected state: a text or a list of texts *)
Inductive wanted := WText (s : string) | WList (l : list string).

Definition is_missing (w : wanted) : bool := match w with WText s => String.eqb s "missing" | WList _ => false end.

(* x in state: a part of the text, or in the list *)
Definition in_state (x : string) (w : wanted) : bool := match w with WText s => contains x s | WList l => memS x l end.

(* bgp/frr.py:12-16 af_lookup *)
Definition af_lookup : dict string := [("ipv4", "ipv4Unicast"); ("ipv6", "ipv6Unicast"); ("evpn", "evpn")].

(* bgp/frr.py:29-67 valid_bgp_neighbor; [res]: states of peers by address family *)
Definition frr_neighbor (ngb : list bngb) (id af : string) (w : wanted) (activate intf : string) (res : dict (dict string)) : bool :=
  match neighbor_id ngb id af with
  | None => false
  | Some a =>
      match (match a with NText s => Some s | NTrue => if String.eqb intf "" then None else Some intf end) with
      | None => false
      | Some addr =>
          match dget (if String.eqb activate "" then af else activate) af_lookup with
          | None => false
          | Some key =>
              match dget key res with
              | None => false
              | Some peers =>
                  match dget addr peers with
                  | None => is_missing w
                  | Some st => in_state st w
                  end
              end
          end
      end
  end.

(* bgp/eos.py:37-72 valid_bgp_neighbor; [peers]: states of peers in the VRF, None when there is no such data *)
Definition eos_neighbor (ngb : list bngb) (id af : string) (w : wanted) (peers : option (dict string)) : bool :=
  match neighbor_id ngb id af with
  | None => false
  | Some a =>
      match peers with
      | None => false
      | Some d =>
          match (match a with NText s => dget s d | NTrue => None end) with
          | None => is_missing w
          | Some st => if in_state st w then true else is_missing w && negb (String.eqb st "Established")
          end
      end
  end.

(* an IS-IS circuit *)
Record circuit := mk_ci { ci_adj : option string; ci_state : string; ci_level : option string; ci_area : option string }.

(* isis/frr.py:13-29 check_neighbor_state, check_neighbor_level and check_neighbor_area; an empty text is not checked *)
Definition circuit_ok (state level area : string) (c : circuit) : bool :=
  let same w o := if String.eqb w "" then true else match o with Some x => String.eqb x w | None => false end in
  same state (Some (ci_state c)) && same level (ci_level c) && same area (ci_area c).

(* isis/frr.py:40-55 circuits of one area *)
Fixpoint circuits (id : string) (present : bool) (state level area : string) (l : list circuit) : option bool :=
  match l with
  | [] => None
  | c :: r =>
      match ci_adj c with
      | None => circuits id present state level area r
      | Some a =>
          if negb (String.eqb a id) then circuits id present state level area r
          else if negb present then Some false
          else Some (circuit_ok state level area c)
      end
  end.

(* isis/frr.py:31-60 valid_isis_neighbor; [areas]: circuits of the areas, None without areas *)
Definition valid_isis_neighbor (id : string) (present : bool) (state level area : string) (areas : option (list (list circuit))) : bool :=
  match areas with
  | None => negb present
  | Some l =>
      match fold_left (fun acc a => match acc with Some b => Some b | None => circuits id present state level area a end) l None with
      | Some b => b
      | None => negb present
      end
  end.
