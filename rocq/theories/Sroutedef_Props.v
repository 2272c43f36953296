(* What the parts of static route processing mean: the VRF of next hops, control-plane endpoints, first addresses of
   next-hop lists and warnings (properties C102, C103). *)
From Coq Require Import String Bool Arith List.
From Verif Require Import Base Sroute_Model.
Import ListNotations.
Open Scope nat_scope.

(* A next hop is in its own VRF if it has one (null: the global routing table), otherwise in the VRF of the route *)
Inductive target_vrf (r : route) (x : nexthop) : option string -> Prop :=
| TOwn : forall v, x_vrf x = Some (Some v) -> target_vrf r x (Some v)
| TGlobal : x_vrf x = Some None -> target_vrf r x None
| TRoute : x_vrf x = None -> target_vrf r x (r_vrf r).

Theorem nexthop_vrf_exact : forall r x v, nh_vrf r x = v <-> target_vrf r x v.
Proof.
  intros r x v. unfold nh_vrf. split.
  - intros <-. destruct (x_vrf x) as [[w|]|] eqn:E; now constructor.
  - intros [w E|E|E]; now rewrite E.
Qed.

(* The control-plane endpoint of a node: the loopback of a router, otherwise its first interface *)
Inductive endpoint (t : stopo) (n : string) : afd aval -> Prop :=
| EpLoopback : forall r a, dget n (t_nodes t) = Some r -> rn_host r = false -> rn_loopback r = Some a -> endpoint t n a
| EpHost : forall r i l, dget n (t_nodes t) = Some r -> rn_host r = true -> rn_ifs r = i :: l -> endpoint t n i
| EpInterface : forall r i l, dget n (t_nodes t) = Some r -> rn_loopback r = None -> rn_ifs r = i :: l -> endpoint t n i.

Theorem cp_endpoint_exact : forall t n,
  endpoint t n (get_remote_cp_endpoint t n) \/ get_remote_cp_endpoint t n = no_af /\ forall a, ~ endpoint t n a.
Proof.
  intros t n. unfold get_remote_cp_endpoint. destruct (dget n (t_nodes t)) as [r|] eqn:D.
  2:{ right. split; [auto|]. intros a [r b A|r i l A|r i l A]; congruence. }
  destruct (rn_loopback r) as [a|] eqn:L; [destruct (rn_host r) eqn:H|].
  - destruct (rn_ifs r) as [|i l] eqn:I.
    + right. split; [auto|]. intros b [r' c A B|r' i l A B C|r' i l A B C]; congruence.
    + left. econstructor 2; eauto.
  - left. econstructor 1; eauto.
  - destruct (rn_ifs r) as [|i l] eqn:I.
    + right. split; [auto|]. intros b [r' c A B C|r' i l A B C|r' i l A B C]; congruence.
    + left. econstructor 3; eauto.
Qed.
Theorem cp_endpoint_unique : forall t n a b, endpoint t n a -> endpoint t n b -> a = b.
Proof. intros t n a b [r x A B C|r i l A B C|r i l A B C] [r' x' A' B' C'|r' i' l' A' B' C'|r' i' l' A' B' C']; congruence. Qed.

(* The next hop of a route with a list of next hops is the first address of each family in the list *)
Theorem list_address_exact : forall f l s, first_addr f l = Some (AStr s) <->
  exists l1 h l2, l = l1 ++ h :: l2 /\ aget f (h_addr h) = Some s /\ forall g, In g l1 -> aget f (h_addr g) = None.
Proof.
  intros f l s. unfold first_addr. induction l as [|h r IH]; cbn [flat_map].
  { split; [discriminate|]. intros [[|x l1] [h [l2 [E _]]]]; discriminate E. }
  destruct (aget f (h_addr h)) as [a|] eqn:A; cbn [app].
  - split.
    + intros E. injection E as <-. exists [], h, r. split; [auto|]. split; [auto|]. intros g [].
    + intros [[|x l1] [g [l2 [E [B C]]]]]; cbn [app] in E.
      * injection E as <- _. congruence.
      * injection E as <- _. rewrite C in A by (now left). discriminate.
  - rewrite IH. split.
    + intros [l1 [g [l2 [-> [B C]]]]]. exists (h :: l1), g, l2. split; [auto|]. split; [auto|]. intros k [<-|K]; auto.
    + intros [[|x l1] [g [l2 [E [B C]]]]]; cbn [app] in E.
      * injection E as <- _. congruence.
      * injection E as <- ->. exists l1, g, l2. split; [auto|]. split; [auto|]. intros k K. apply C. now right.
Qed.
Theorem list_address_kind : forall f l v, first_addr f l = Some v -> exists s, v = AStr s.
Proof. intros f l v. unfold first_addr. destruct (flat_map _ l); [discriminate|]. intros E. injection E as <-. eauto. Qed.

(* The unnumbered-neighbor warning is not reported when there is a gateway *)
Theorem gateway_warning_only_missing : forall ipif t nd r x create ifs l s w,
  resolve_gateway_nexthop ipif t nd r x create ifs = Some (l, Some s, w) -> w = false /\ exists h hs, rs_list s = Some (h :: hs).
Proof.
  intros ipif t nd r x create ifs l s w. unfold resolve_gateway_nexthop.
  destruct (gw_hops _ _ _ _ _ _ _ _) as [[[l0 acc] un]|]; [|discriminate]. intros E.
  destruct acc as [|h hs]; [discriminate|]. injection E as <- <- <-. split; [auto|]. exists h, hs. reflexivity.
Qed.

(* ---- cases ---- *)

Definition df_route : route := mk_route no_af None None None (Some "red"%string) None false false.
Definition df_nx (v : option (option string)) : nexthop := mk_nx no_af None false v None None None.
Example nexthop_vrf_case : nh_vrf df_route (df_nx None) = Some "red"%string /\ nh_vrf df_route (df_nx (Some None)) = None /\
  nh_vrf df_route (df_nx (Some (Some "blue"%string))) = Some "blue"%string.
Proof. repeat split. Qed.

Definition df_top : stopo :=
  mk_stopo [] [] [("r"%string, mk_rnode false (Some (mk_af (Some (AStr "10.0.0.1/32")) None)) [mk_af (Some (AStr "10.1.0.1/24")) None]);
                  ("h"%string, mk_rnode true (Some (mk_af (Some (AStr "10.0.0.2/32")) None)) [mk_af (Some (AStr "10.1.0.2/24")) None]);
                  ("s"%string, mk_rnode false None [mk_af (Some (AStr "10.1.0.3/24")) None])].
Example cp_endpoint_case : map (fun n => a4 (get_remote_cp_endpoint df_top n)) ["r"; "h"; "s"; "x"]%string =
  [Some (AStr "10.0.0.1/32"); Some (AStr "10.1.0.2/24"); Some (AStr "10.1.0.3/24"); None]%string.
Proof. reflexivity. Qed.

Definition df_hop (a : option string) : nhe := mk_nhe (mk_af a None) "eth1" None.
Example list_address_case : first_addr V4 [df_hop None; df_hop (Some "10.1.0.1"%string); df_hop (Some "10.1.0.2"%string)] = Some (AStr "10.1.0.1").
Proof. reflexivity. Qed.

(* a numbered and an unnumbered router on the interface: a next hop and no warning *)
Definition df_intf (l : list ngb) : sintf := mk_sintf "eth1" None (mk_af (Some (AStr "10.1.0.9/24")) None) GwNone l.
Definition df_ngb (v : aval) : ngb := mk_ngb "r" (mk_af (Some v) None) GwNone false false.
Definition df_node : snode := mk_snode [V4] [] true true true None.
Example gateway_warning_case :
  let run l := option_map (fun q => (option_map rs_list (snd (fst q)), snd q))
    (resolve_gateway_nexthop (fun s => Some (s, s)) df_top df_node df_route (df_nx (Some None)) true [df_intf l]) in
  run [df_ngb (ABool true); df_ngb (AStr "10.1.0.1")] = Some (Some (Some [mk_nhe (mk_af (Some "10.1.0.1"%string) None) "eth1" (Some None)]), false) /\
  run [df_ngb (ABool true)] = Some (None, true).
Proof. split; vm_compute; reflexivity. Qed.

Print Assumptions nexthop_vrf_exact.
Print Assumptions cp_endpoint_exact.
Print Assumptions cp_endpoint_unique.
Print Assumptions list_address_exact.
Print Assumptions list_address_kind.
Print Assumptions gateway_warning_only_missing.
