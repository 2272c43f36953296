(* Model of address pools: netsim/augment/addressing.py. Definitions only.
   Addresses are integers; a network is (first address, prefix length) in an address family
   of the given width (32 or 128). *)
From Coq Require Import String ZArith Bool List.
From Verif Require Import Base.
Import ListNotations.
Open Scope Z_scope.

(* ipaddress.IPv4Network / IPv6Network *)
Record network := mk_net { net_addr : Z; net_plen : Z }.

(* num_addresses *)
Definition net_size (w : Z) (n : network) : Z := 2 ^ (w - net_plen n).

(* The generator object returned by data.subnets(new_prefix=plen), addressing.py:223.
   CPython: range(network_address, broadcast_address + 1, step), so the k-th element is
   network_address + k*step. State: position in that range. *)
Record generator := mk_gen { g_net : network; g_new : Z; g_pos : Z }.

Definition gen_count (g : generator) : Z := 2 ^ (g_new g - net_plen (g_net g)).

Definition gen_elem (w : Z) (g : generator) (k : Z) : network :=
  mk_net (net_addr (g_net g) + k * 2 ^ (w - g_new g)) (g_new g).

(* next(generator); None is StopIteration *)
Definition gen_next (w : Z) (g : generator) : option (network * generator) :=
  if g_pos g <? gen_count g
  then Some (gen_elem w g (g_pos g), mk_gen (g_net g) (g_new g) (g_pos g + 1))
  else None.

(* One address family of one entry of topology.pools: the generator and, once an n-th
   request was made, cache_ipv4/cache_ipv6. Simplification: get_pool_prefix
   (addressing.py:246-278) walks over the address families of a pool and treats each of
   them independently, so a single family is modelled; non-generator attributes of the pool
   are copied and irrelevant here. *)
Record pool := mk_pool { p_gen : generator; p_cache : list network }.

(* addressing.py:217-225: create the generator, skip the first subnet for /32, /127+ and for
   the loopback pool. [None]: StopIteration in the skip would be an uncaught exception, or the
   ValueError raised by subnets() when the new prefix is shorter than the pool prefix or longer
   than the address (in the code that exception shows up at the first next()). *)
Definition create_pool (w : Z) (n : network) (newp : Z) (is_loopback : bool) : option pool :=
  if (newp <? net_plen n) || (newp >? w) then None
  else
    let g := mk_gen n newp 0 in
    let skip := ((w =? 32) && (newp =? 32)) || ((w =? 128) && (newp >=? 127)) || is_loopback in
    if skip then
      match gen_next w g with
      | Some (_, g') => Some (mk_pool g' [])
      | None => None
      end
    else Some (mk_pool g []).

(* addressing.py:241-244 get_nth_subnet: append to the cache until it has n elements.
   [todo] is n - len(cache). Returns the generator and cache as left behind, and whether
   StopIteration was raised. *)
Fixpoint fill_cache (w : Z) (todo : nat) (g : generator) (c : list network)
  : bool * generator * list network :=
  match todo with
  | O => (true, g, c)
  | S t =>
      match gen_next w g with
      | None => (false, g, c)
      | Some (x, g') => fill_cache w t g' (c ++ [x])
      end
  end.

Inductive pool_op :=
| PNext                          (* get_pool_prefix(pools,p) *)
| PNth (n : nat).                (* get_pool_prefix(pools,p,n) *)

(* addressing.py:246-278 get_pool_prefix for one address family: the prefix handed out, or
   None together with a logged error. [n = 0] is falsy (line 256) and acts as "next". *)
Definition get_pool_prefix (w : Z) (o : pool_op) (p : pool) : option network * pool :=
  let next :=
    match gen_next w (p_gen p) with
    | Some (x, g') => (Some x, mk_pool g' (p_cache p))
    | None => (None, p)
    end in
  match o with
  | PNext => next
  | PNth O => next
  | PNth (S m) =>
      match fill_cache w (S m - length (p_cache p)) (p_gen p) (p_cache p) with
      | (true, g', c') => (nth_error c' m, mk_pool g' c')
      | (false, g', c') => (None, mk_pool g' c')
      end
  end.

(* a history of requests and the answers *)
Fixpoint pool_run (w : Z) (h : list pool_op) (p : pool) : list (pool_op * option network) * pool :=
  match h with
  | [] => ([], p)
  | o :: r =>
      let (x, p') := get_pool_prefix w o p in
      let (xs, p'') := pool_run w r p' in ((o, x) :: xs, p'')
  end.

(* addressing.py:411-413 get_nth_ip_from_prefix: net[host]; Python's network indexing accepts
   negative indices counting from the end and raises IndexError outside the network. *)
Definition nth_ip (w : Z) (n : network) (host : Z) : option Z :=
  if 0 <=? host then
    if host <? net_size w n then Some (net_addr n + host) else None
  else
    if - net_size w n <=? host then Some (net_addr n + net_size w n + host) else None.
