(* Model of members of LAG links and of MLAG peer links: netsim/modules/lag.py normalized_members, check_mlag_support, create_peer_links.
   Members are described by the keys of their LAG attributes and the nodes of their interfaces (after adjust_link_object); link data copied
   into members are not modelled. Definitions only. *)
From Coq Require Import String Ascii ZArith Bool List.
From Verif Require Import Base.
Import ListNotations.
Local Open Scope string_scope.
Local Open Scope list_scope.

Record pmember := PM { pm_lag : option (list string); pm_nodes : list string }.

Inductive perr :=
| PAttr (idx : nat)         (* LAG attributes on a member *)
| PCount (idx : nat)        (* not two interfaces *)
| PSelf (idx : nat)         (* both interfaces on one node *)
| PDevices                  (* different device types *)
| PMlag (n : string)        (* a node does not support MLAG *)
| PPair (others : list string). (* other nodes than the first member *)

(* lag.py:89-91 are LAG attributes of a member invalid? *)
Definition bad_lag (peer : bool) (m : pmember) : bool :=
  match pm_lag m with
  | None => false
  | Some ks => peer || Nat.ltb 0 (length ks - (if memS "ifindex" ks then 1 else 0))
  end.

(* lag.py:89-106 error in a member *)
Definition member_error (peer : bool) (idx : nat) (m : pmember) : option perr :=
  if bad_lag peer m then Some (PAttr idx)
  else match pm_nodes m with
       | [a; b] => if String.eqb a b then Some (PSelf idx) else None
       | _ => Some (PCount idx)
       end.

(* lag.py:84-108 normalized_members: members, or no members and an error *)
Fixpoint norm_loop (peer : bool) (idx : nat) (ms acc : list pmember) : list pmember * list perr :=
  match ms with
  | [] => (acc, [])
  | m :: r => match member_error peer idx m with
              | Some e => ([], [e])
              | None => norm_loop peer (S idx) r (acc ++ [m])
              end
  end.
Definition normalized_members (peer : bool) (ms : list pmember) : list pmember * list perr := norm_loop peer 1 ms [].

(* result, errors, MLAG pairs, links added to the topology *)
Record presult := PR { pr_ok : bool; pr_errs : list perr; pr_pairs : dict string; pr_added : list pmember }.

(* lag.py:245-252 check_same_pair *)
Definition others (pair : list string) (m : pmember) : list string := filter (fun n => negb (memS n pair)) (pm_nodes m).

(* lag.py:275-282 members after the first one *)
Fixpoint more_members (pair : list string) (ms added : list pmember) : bool * list perr * list pmember :=
  match ms with
  | [] => (true, [], added)
  | m :: r => match others pair m with
              | [] => more_members pair r (added ++ [m])
              | o => (false, [PPair o], added)
              end
  end.

(* lag.py:239-285 create_peer_links; [dev]: device of a node, [mlag]: does a node support MLAG (lag.py:68-76) *)
Definition create_peer_links (dev : string -> string) (mlag : string -> bool) (ms : list pmember) (pairs : dict string) : presult :=
  let n := normalized_members true ms in
  match fst n with
  | m :: r =>
      match pm_nodes m with
      | [a; b] =>
          if negb (String.eqb (dev a) (dev b)) then PR false (snd n ++ [PDevices]) pairs []
          else if negb (mlag a) then PR false (snd n ++ [PMlag a]) pairs []
          else if negb (mlag b) then PR false (snd n ++ [PMlag b]) pairs []
          else let t := more_members [a; b] r [] in PR (fst (fst t)) (snd n ++ snd (fst t)) (dset b a (dset a b pairs)) (snd t)
      | _ => PR false (snd n) pairs []   (* not reached: normalized members have two interfaces *)
      end
  | [] => PR true (snd n) pairs []
  end.

(* lag.py:407-411 peer links of the topology, until one of them fails or all are done: MLAG pairs *)
Fixpoint all_pairs (dev : string -> string) (mlag : string -> bool) (links : list (list pmember)) (pairs : dict string) : dict string :=
  match links with
  | [] => pairs
  | l :: r => let x := create_peer_links dev mlag l pairs in if pr_ok x then all_pairs dev mlag r (pr_pairs x) else pr_pairs x
  end.
