(* Model of netsim/modules/srv6.py: SRv6 locators. Definitions only.
   IPv6 addresses are lists of eight 16-bit numbers; zone identifiers are not modelled. *)
From Coq Require Import String Ascii ZArith Bool List.
From Verif Require Import Base Text_Model.
Import ListNotations.
Local Open Scope string_scope.
Local Open Scope list_scope.

(* hexadecimal digits *)
Definition hexchar (z : Z) : ascii := nth (Z.to_nat z) (list_ascii_of_string "0123456789abcdef") "0"%char.
Definition hexval (c : ascii) : option Z :=
  let n := Z.of_nat (nat_of_ascii c) in
  if ((48 <=? n) && (n <=? 57))%Z then Some (n - 48)%Z
  else if ((97 <=? n) && (n <=? 102))%Z then Some (n - 87)%Z
  else if ((65 <=? n) && (n <=? 70))%Z then Some (n - 55)%Z else None.

(* f'{n:x}' *)
Fixpoint hex_digits (fuel : nat) (z : Z) : list Z :=
  match fuel with
  | O => []
  | S f => if (z <? 16)%Z then [z] else hex_digits f (z / 16)%Z ++ [(z mod 16)%Z]
  end.
Definition hex (z : Z) : string := string_of_list_ascii (map hexchar (hex_digits (S (Z.to_nat z)) z)).

Fixpoint sequence (l : list (option Z)) : option (list Z) :=
  match l with
  | [] => Some []
  | Some x :: r => match sequence r with Some q => Some (x :: q) | None => None end
  | None :: _ => None
  end.

(* ipaddress.IPv6Address: a part of an address has one to four hexadecimal digits *)
Definition parse_part (s : string) : option Z :=
  let l := list_ascii_of_string s in
  if (Nat.leb 1 (length l) && Nat.leb (length l) 4)%bool then
    match sequence (map hexval l) with Some d => Some (fold_left (fun a x => 16 * a + x)%Z d 0%Z) | None => None end
  else None.

(* modules/srv6.py:15 node_post_transform: the text of the locator *)
Definition locator_text (pfx : string) (id : Z) : string := (pfx ++ ":" ++ hex id ++ "::/64")%string.

(* modules/srv6.py:15-16 node_post_transform: the network; None - the text is not an IPv6 network *)
Definition locator_net (pfx : string) (id : Z) : option (list Z) :=
  match sequence (map parse_part (split ":" pfx ++ [hex id])) with
  | Some h => let a := h ++ repeat 0%Z (8 - length h) in
              if (Nat.leb (length h) 7 && forallb (Z.eqb 0) (skipn 4 a))%bool then Some a else None
  | None => None
  end.

Inductive serr6 := SNoLoopback (node : string) | SOverlap (node : string).

(* a node: name, identifier, IPv6 address and prefix length of the loopback, locator *)
Record snode6 := mk_s6 { s6_name : string; s6_id : Z; s6_loop : option (list Z * Z); s6_loc : option string }.

(* ipaddress subnet_of: the network of an address in a network with prefix length 64 *)
Fixpoint same (a b : list Z) : bool :=
  match a, b with
  | [], [] => true
  | x :: a', y :: b' => Z.eqb x y && same a' b'
  | _, _ => false
  end.
Definition subnet_of (a : list Z) (len : Z) (net : list Z) : bool := (64 <=? len)%Z && same (firstn 4 a) (firstn 4 net).

(* modules/srv6.py:12-30 node_post_transform; None - an exception *)
Definition srv6_node (pfx : string) (n : snode6) : option (snode6 * list serr6) :=
  match locator_net pfx (s6_id n) with
  | None => None
  | Some net =>
      Some (mk_s6 (s6_name n) (s6_id n) (s6_loop n) (Some (locator_text pfx (s6_id n))),
            match s6_loop n with
            | None => [SNoLoopback (s6_name n)]
            | Some (a, len) => if subnet_of a len net then [SOverlap (s6_name n)] else []
            end)
  end.
