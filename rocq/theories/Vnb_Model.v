(* Model of lab validation on FRR: OSPF neighbors (netsim/validate/ospf/frr.py), IS-IS prefixes (netsim/validate/isis/frr.py)
   and the routing table (netsim/validate/route/frr.py). An exception is a failed validation (false). Definitions only. *)
From Coq Require Import String Ascii ZArith Bool List.
From Verif Require Import Base.
Import ListNotations.
Local Open Scope string_scope.
Local Open Scope list_scope.

(* ospf/frr.py:20-39 valid_ospf_neighbor. [vrfs]: results of VRFs, [res]: states of neighbors outside VRFs, by router ID *)
Definition valid_ospf_neighbor (id : string) (present : bool) (vrf : string) (vrfs : dict (dict (list string))) (res : dict (list string)) : bool :=
  let r := match dget vrf vrfs with Some x => x | None => res end in
  match dget id r with
  | None => negb present
  | Some [] => false
  | Some (s :: _) => if negb present then false else prefix "Full" s
  end.

(* text before the first percent sign *)
Fixpoint router_id (s : string) : string :=
  match s with
  | EmptyString => EmptyString
  | String c r => if Ascii.eqb c "%" then EmptyString else String c (router_id r)
  end.

(* ospf/frr.py:52-56 first neighbor with this router ID *)
Fixpoint find_nbr (id : string) (res : dict string) : option string :=
  match res with
  | [] => None
  | (k, s) :: r => if String.eqb (router_id k) id then Some s else find_nbr id r
  end.

(* ospf/frr.py:48-69 valid_ospf6_neighbor *)
Definition valid_ospf6_neighbor (id : string) (present : bool) (res : dict string) : bool :=
  match find_nbr id res with
  | None => negb present
  | Some s => if negb present then false else String.eqb s "Full"
  end.

(* prefixes with metrics by address family; an area has them by level *)
Definition isis_area := dict (dict (list (string * option Z))).

(* isis/frr.py:89-97 prefixes of one area: None when the prefix is not there, otherwise the result *)
Fixpoint isis_scan (pfx : string) (present : bool) (cost : option Z) (l : list (string * option Z)) : option bool :=
  match l with
  | [] => None
  | (p, m) :: r =>
      if String.eqb p pfx then
        Some (if negb present then false
              else match cost with
                   | None => true
                   | Some c => match m with Some x => Z.eqb x c | None => false end
                   end)
      else isis_scan pfx present cost r
  end.

(* isis/frr.py:80-101 valid_isis_prefix; [level]: text level-1 or level-2 *)
Fixpoint valid_isis_prefix (pfx level af : string) (present : bool) (cost : option Z) (areas : list isis_area) : bool :=
  match areas with
  | [] => negb present
  | a :: r =>
      match dget level a with
      | None => valid_isis_prefix pfx level af present cost r
      | Some info =>
          match dget af info with
          | None => valid_isis_prefix pfx level af present cost r
          | Some l =>
              match isis_scan pfx present cost l with
              | Some b => b
              | None => valid_isis_prefix pfx level af present cost r
              end
          end
      end
  end.

(* route/frr.py:22-56 valid_rt_prefix; a route is its metric *)
Definition valid_rt_prefix (pfx : string) (st : option string) (metric : option Z) (table : dict (list (option Z))) : bool :=
  match dget pfx table with
  | None => match st with Some s => String.eqb s "missing" | None => false end
  | Some [] => false
  | Some (m :: _) =>
      match metric with
      | None => true
      | Some v => match m with Some x => Z.eqb x v | None => false end
      end
  end.
