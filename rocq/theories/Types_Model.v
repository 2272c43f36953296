(* Model of netsim/data/types.py: the validation wrapper and the scalar validators.
   Definitions only. Not modelled: error texts, named prefixes, IPv6 and MAC parsing. *)
From Coq Require Import String Ascii ZArith Bool List.
From Verif Require Import Base Box_Model Dev_Model Text_Model.
Import ListNotations.
Local Open Scope string_scope.
Local Open Scope list_scope.
Local Open Scope Z_scope.

(* ---- python int(s) on ASCII strings ---- *)

Definition digit_val (c : ascii) : Z := Z.of_nat (nat_of_ascii c) - 48.

Definition is_space (c : ascii) : bool :=
  (between "009" "013" c || between "028" " " c)%bool.

Fixpoint rstrip (f : ascii -> bool) (s : string) : string :=
  match s with
  | EmptyString => EmptyString
  | String c r => match rstrip f r with
                  | EmptyString => if f c then EmptyString else String c EmptyString
                  | t => String c t
                  end
  end.

(* digits, single underscores allowed between them; [dig] - the last character was a digit *)
Fixpoint parse_digits (dig : bool) (acc : Z) (s : string) : option Z :=
  match s with
  | EmptyString => if dig then Some acc else None
  | String c r =>
      if is_digit c then parse_digits true (10 * acc + digit_val c) r
      else if Ascii.eqb c "_" && dig then parse_digits false acc r
      else None
  end.

Definition py_int (s : string) : option Z :=
  match rstrip is_space (lstrip is_space s) with
  | String "-" r => match parse_digits false 0 r with Some n => Some (- n) | None => None end
  | String "+" r => parse_digits false 0 r
  | t => parse_digits false 0 t
  end.

(* ---- result of a validator: '_valid' (with the transformed value), '_type', '_value' ---- *)
Inductive status := Valid (v : val) | BadType | BadValue.

(* types.py:486-505 check_int_type *)
Definition check_int_type (min_value max_value : option Z) (v : val) : status :=
  match v with
  | VInt n =>
      match min_value, max_value with
      | Some lo, Some hi => if (n <? lo) || (n >? hi) then BadValue else Valid v
      | Some lo, None => if n <? lo then BadValue else Valid v
      | None, Some hi => if n >? hi then BadValue else Valid v
      | None, None => Valid v
      end
  | VBool _ => BadValue
  | _ => BadType
  end.

(* types.py:507-524 must_be_int *)
Definition must_be_int (min_value max_value : option Z) (v : val) : status :=
  match v with
  | VStr s => match py_int s with
              | Some n => Valid (VInt n)
              | None => check_int_type min_value max_value v
              end
  | _ => check_int_type min_value max_value v
  end.

(* types.py:526-545 must_be_bool *)
Definition must_be_bool (v : val) : status :=
  match v with
  | VStr s => if String.eqb s "True" || String.eqb s "true" then Valid (VBool true)
              else if String.eqb s "False" || String.eqb s "false" then Valid (VBool false)
              else BadType
  | VBool _ => Valid v
  | _ => BadType
  end.

(* types.py:552-561 must_be_asn2 *)
Definition must_be_asn2 (v : val) : status :=
  match v with
  | VInt n => if (n <? 0) || (n >? 65535) then BadValue else Valid v
  | _ => BadType
  end.

(* types.py:563-568 transform_asdot; the parts are integers by then *)
Fixpoint transform_asdot (asv : Z) (parts : list string) : Z :=
  match parts with
  | [] => asv
  | p :: r => transform_asdot (65536 * asv + match py_int p with Some n => n | None => 0 end) r
  end.

(* types.py:583-592 the loop of asdot_parsing *)
Fixpoint asdot_parts (asv : Z) (parts : list string) : status + Z :=
  match parts with
  | [] => inr asv
  | p :: r =>
      match py_int p with
      | None => inl BadType
      | Some n => if (n <? 0) || (n >? 65535) then inl BadValue else asdot_parts (65536 * asv + n) r
      end
  end.

(* types.py:572-597 asdot_parsing *)
Definition asdot_parsing (s : string) : status :=
  let parts := split "." s in
  if (2 <? length parts)%nat then BadType
  else match asdot_parts 0 parts with
       | inl e => e
       | inr asv => if (asv <=? 0) || (asv >=? 2 ^ 32) then BadValue
                    else Valid (VInt (transform_asdot 0 parts))
       end.

(* types.py:599-613 must_be_asn *)
Definition must_be_asn (v : val) : status :=
  match v with
  | VStr s => asdot_parsing s
  | VInt n => if (n <? 0) || (n >? 4294967295) then BadValue else Valid v
  | _ => BadType
  end.

(* types.py:437-453 must_be_list *)
Definition must_be_list (make_list : bool) (v : val) : status :=
  match v with
  | VList _ => Valid v
  | VStr _ | VInt _ | VBool _ => Valid (VList [v])
  | _ => if make_list then Valid (VList [v]) else BadType
  end.

(* types.py:455-457 must_be_dict *)
Definition must_be_dict (v : val) : status := if is_dict v then Valid v else BadType.

(* types.py:459-465 must_be_string, must_be_str *)
Definition must_be_str (v : val) : status := match v with VStr _ => Valid v | _ => BadType end.

(* types.py:467-482 must_be_id; max_length is a positive integer *)
Definition must_be_id (max_length : nat) (v : val) : status :=
  match v with
  | VStr (String c r) =>
      if (is_word c && negb (is_digit c)) && all_chars (fun x => is_word x || Ascii.eqb x "-") r
         && (String.length r <=? max_length - 1)%nat
      then Valid v else BadType
  | _ => BadType
  end.

(* ---- IPv4 addresses and prefixes: python ipaddress ---- *)

(* ipaddress._parse_octet: 1-3 ASCII digits, no leading zero, at most 255 *)
Definition parse_octet (s : string) : option Z :=
  match s with
  | EmptyString => None
  | String c r =>
      if negb (all_chars is_digit s) || (3 <? String.length s)%nat
         || (Ascii.eqb c "0" && negb (String.eqb r EmptyString))
      then None
      else match parse_digits false 0 s with
           | Some n => if n >? 255 then None else Some n
           | None => None
           end
  end.

(* ipaddress.IPv4Address(str) *)
Definition parse_ipv4 (s : string) : option Z :=
  match split "." s with
  | [a; b; c; d] =>
      match parse_octet a, parse_octet b, parse_octet c, parse_octet d with
      | Some a, Some b, Some c, Some d => Some (((a * 256 + b) * 256 + c) * 256 + d)
      | _, _, _, _ => None
      end
  | _ => None
  end.

(* prefix length written in digits; netmasks in dotted form are not modelled (rejected here) *)
Definition parse_plen (s : string) : option Z :=
  match s with
  | EmptyString => None
  | _ => if all_chars is_digit s then
           match parse_digits false 0 s with
           | Some n => if n >? 32 then None else Some n
           | None => None
           end
         else None
  end.

(* ipaddress.IPv4Network(str,strict): network address and prefix length *)
Definition parse_ipv4_net (strict : bool) (s : string) : option (Z * Z) :=
  let addr_plen :=
    match split "/" s with
    | [a] => match parse_ipv4 a with Some x => Some (x, 32) | None => None end
    | [a; l] => match parse_ipv4 a, parse_plen l with
                | Some x, Some n => Some (x, n)
                | _, _ => None
                end
    | _ => None
    end in
  match addr_plen with
  | None => None
  | Some (x, n) =>
      let net := x - x mod 2 ^ (32 - n) in
      if strict && negb (net =? x) then None else Some (net, n)
  end.

(* str(ipaddress.IPv4Address(n)) *)
Definition digit_char (n : Z) : ascii := ascii_of_nat (Z.to_nat (48 + n)).
Definition octet_str (n : Z) : string :=
  if n <? 10 then String (digit_char n) EmptyString
  else if n <? 100 then String (digit_char (n / 10)) (String (digit_char (n mod 10)) EmptyString)
  else String (digit_char (n / 100)) (String (digit_char (n / 10 mod 10)) (String (digit_char (n mod 10)) EmptyString)).
Definition ipv4_str (n : Z) : string :=
  (octet_str (n / 16777216) ++ "." ++ octet_str (n / 65536 mod 256) ++ "." ++
   octet_str (n / 256 mod 256) ++ "." ++ octet_str (n mod 256))%string.

Inductive addr_use := Address | Prefix | HostPrefix | Interface | SubnetPrefix | Id.

(* types.py:653-711 common_addr_parse and must_be_ipv4 without named prefixes *)
Definition must_be_ipv4 (use : addr_use) (v : val) : status :=
  match v with
  | VBool _ => match use with Interface | SubnetPrefix => Valid v | _ => BadValue end
  | VInt n =>
      match use with
      | Id => if (n <? 0) || (n >? 2 ^ 32 - 1) then BadValue else Valid (VStr (ipv4_str n))
      | Interface => if (n <? 0) || (n >? 2 ^ 32 - 1) then BadValue else Valid v
      | _ => BadValue
      end
  | VStr s =>
      let as_addr := match use with
                     | Id | Address => true
                     | Interface => negb (existsb (Ascii.eqb "/") (list_ascii_of_string s))
                     | _ => false
                     end in
      if as_addr then
        match parse_ipv4 s with Some _ => Valid v | None => BadValue end
      else
        match parse_ipv4_net (match use with Interface | HostPrefix => false | _ => true end) s with
        | Some _ => Valid v
        | None => BadValue
        end
  | _ => BadType
  end.

(* types.py:797-813 must_be_net *)
Definition is_hex (c : ascii) : bool := is_digit c || between "a" "f" c.
Fixpoint count_chars (f : ascii -> bool) (s : string) : nat :=
  match s with
  | EmptyString => O
  | String c r => if f c then S (count_chars f r) else count_chars f r
  end.
Definition must_be_net (v : val) : status :=
  match v with
  | VStr EmptyString => BadValue
  | VStr s =>
      if all_chars (fun c => is_hex c || Ascii.eqb c ".") s then
        if Nat.even (count_chars (fun c => negb (Ascii.eqb c ".")) s) then Valid v else BadValue
      else BadValue
  | _ => BadType
  end.

(* types.py:815-840 must_be_rd *)
Definition must_be_rd (v : val) : status :=
  match v with
  | VInt _ | VBool _ | VNull => Valid v
  | VStr s =>
      match split ":" s with
      | [rdt; rdi] =>
          match py_int rdi with
          | None => BadValue
          | Some _ =>
              match py_int rdt with
              | Some _ => Valid v
              | None => match parse_ipv4 rdt with Some _ => Valid v | None => BadValue end
              end
          end
      | _ => BadValue
      end
  | _ => BadType
  end.

(* ---- the wrapper ---- *)

Record topts := mk_topts {
  t_empty : option val;          (* empty_value of the type *)
  t_false : option val;          (* false_value of the type *)
  t_create : option bool;        (* create_empty *)
  t_true : option val;           (* true_value *)
  t_values : list val            (* valid_values; [] is no limit *)
}.

Inductive terror := WrongType | WrongValue | InvalidValue.

(* parent.get(key,None) *)
Definition get_value (key : string) (parent : dict val) : option val :=
  match dget key parent with Some VNull => None | x => x end.

(* types.py:259-302 get_value_to_check without _abort: value and new parent *)
Definition get_value_to_check (o : topts) (key : string) (parent : dict val) : option val * dict val :=
  let '(value, parent) :=
    match get_value key parent with
    | Some v => (Some v, parent)
    | None =>
        match t_empty o with
        | Some e => if (match t_create o with Some b => b | None => true end)
                    then (Some e, dset key e parent) else (None, parent)
        | None => (None, parent)
        end
    end in
  match value, t_true o with
  | Some (VBool true), Some tv => (Some tv, dset key tv parent)
  | Some (VBool false), Some _ =>
      match t_false o with
      | None => (None, dpop key parent)
      | Some fv => (Some fv, dset key fv parent)
      end
  | _, _ => (value, parent)
  end.

Definition val_eqb (a b : val) : bool :=
  match a, b with
  | VNull, VNull => true
  | VBool x, VBool y => Bool.eqb x y
  | VInt x, VInt y => x =? y
  | VStr x, VStr y => String.eqb x y
  | _, _ => false
  end.

(* types.py:187-216 check_valid_values (scalars; python also compares True to 1) *)
Definition check_valid_values (expected : list val) (v : val) : bool :=
  match v with
  | VList l => forallb (fun x => existsb (val_eqb x) expected) l
  | _ => existsb (val_eqb v) expected
  end.

(* types.py:354-413 execute_test without _abort and with a parent: new parent, errors *)
Definition type_test (test : val -> status) (o : topts) (key : string) (parent : dict val)
  : dict val * list terror :=
  let '(value, parent) := get_value_to_check o key parent in
  if negb (dmem key parent) then (parent, [])
  else
    match test (match value with Some v => v | None => VNull end) with
    | BadType => (parent, [WrongType])
    | BadValue => (parent, [WrongValue])
    | Valid v =>
        let parent := dset key v parent in
        match t_values o with
        | [] => (parent, [])
        | l => if check_valid_values l v then (parent, []) else (parent, [InvalidValue])
        end
    end.
