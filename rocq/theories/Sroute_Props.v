(* Static routes: specification vocabulary and closed forms of the resolve loops. *)
From Coq Require Import String Bool Arith Lia List.
From Verif Require Import Base Sroute_Model.
Import ListNotations.
Open Scope nat_scope.

(* ---- specification vocabulary ---- *)

Definition vrf_dec : forall a b : option string, {a = b} + {a <> b}.
Proof. assert (S := string_dec). decide equality. Defined.

(* The list without repeated elements, keeping the first of equal elements *)
Definition nhe_dec : forall x y : nhe, {x = y} + {x <> y}.
Proof.
  assert (S := string_dec). assert (O := vrf_dec).
  assert (OO : forall a b : option (option string), {a = b} + {a <> b}) by (decide equality).
  intros [[a b] c d] [[a' b'] c' d'].
  destruct (O a a'); [|right; congruence]. destruct (O b b'); [|right; congruence].
  destruct (S c c'); [|right; congruence]. destruct (OO d d'); [|right; congruence].
  left; subst; reflexivity.
Defined.
Definition other (x y : nhe) : bool := if nhe_dec x y then false else true.
Fixpoint uniq (l : list nhe) : list nhe :=
  match l with
  | [] => []
  | x :: r => x :: filter (other x) (uniq r)
  end.

(* The interface is in the VRF *)
Definition in_vrf (v : option string) (i : sintf) : bool := if vrf_dec (i_vrf i) v then true else false.

Section Ip.
Variable ipif : string -> option (string * string).

(* The host part of the text addresses of a dictionary *)
Definition host_str (v : option aval) : option string :=
  match v with Some (AStr s) => match ipif s with Some (h, _) => Some h | None => None end | _ => None end.
Definition host_af (d : afd aval) : afd string := mk_af (host_str (a4 d)) (host_str (a6 d)).

(* The text addresses of a dictionary can be parsed *)
Definition good_val (v : option aval) : Prop := match v with Some (AStr s) => ipif s <> None | _ => True end.
Definition good_addr (d : afd aval) : Prop := good_val (a4 d) /\ good_val (a6 d).

(* The next hop through an interface: the addresses of the other side *)
Definition hop_of (i : sintf) (xv : option (option string)) (d : afd aval) : list nhe :=
  if has_af (host_af d) then [mk_nhe (host_af d) (i_name i) xv] else [].

(* Node next hops: one for every neighbor entry of the node on the interfaces of the VRF *)
Definition node_all (n : string) (v : option string) (xv : option (option string)) (ifs : list sintf) : list nhe :=
  flat_map (fun i => flat_map (fun g => if String.eqb (n_node g) n then hop_of i xv (n_addr g) else []) (i_ngb i))
    (filter (in_vrf v) ifs).

(* The node is a neighbor on some interface, in any VRF *)
Definition is_neighbor (n : string) (ifs : list sintf) : bool :=
  existsb (fun i => existsb (fun g => String.eqb (n_node g) n) (i_ngb i)) ifs.

(* ---- equality and repeated next hops ---- *)

Lemma opt_eqb_true : forall x y, opt_eqb x y = true <-> x = y.
Proof.
  intros [x|] [y|]; simpl; try (split; congruence).
  - rewrite String.eqb_eq. split; congruence.
Qed.

Lemma opt_eqb_in_vrf : forall i v, opt_eqb (i_vrf i) v = in_vrf v i.
Proof.
  intros i v. unfold in_vrf. destruct (vrf_dec (i_vrf i) v) as [E|N].
  - apply opt_eqb_true; auto.
  - destruct (opt_eqb (i_vrf i) v) eqn:E; auto. apply opt_eqb_true in E. contradiction.
Qed.

Lemma nhe_eqb_true : forall x y, nhe_eqb x y = true <-> x = y.
Proof.
  intros [[a b] c d] [[a' b'] c' d']. unfold nhe_eqb. simpl.
  rewrite !andb_true_iff, !opt_eqb_true, String.eqb_eq. split.
  - intros [[[-> ->] ->] E]. destruct d as [d|], d' as [d'|]; simpl in E; try discriminate; auto.
    apply opt_eqb_true in E. now subst.
  - intros E. inversion E; subst. repeat split; auto.
    destruct d' as [d'|]; simpl; auto. apply opt_eqb_true; auto.
Qed.

Lemma nhe_existsb : forall x l, existsb (nhe_eqb x) l = true <-> In x l.
Proof.
  intros x l. rewrite existsb_exists. split.
  - intros [y [H E]]. apply nhe_eqb_true in E. now subst.
  - intros H. exists x. split; auto. now apply nhe_eqb_true.
Qed.

Definition fresh (acc : list nhe) (x : nhe) : bool := negb (existsb (nhe_eqb x) acc).

Lemma filter_filter : forall A (p q : A -> bool) l, filter p (filter q l) = filter (fun x => q x && p x) l.
Proof.
  induction l as [|x l IH]; simpl; auto. destruct (q x) eqn:E; simpl; auto.
  destruct (p x); now rewrite IH.
Qed.

Lemma filter_same : forall A (p q : A -> bool) l, (forall x, In x l -> p x = q x) -> filter p l = filter q l.
Proof.
  induction l as [|x l IH]; intros H; simpl; auto.
  rewrite (H x) by (left; auto). rewrite IH; auto. intros y Hy. apply H. right; auto.
Qed.

Lemma fold_append : forall l acc,
  fold_left append_new l acc = acc ++ filter (fresh acc) (uniq l).
Proof.
  induction l as [|x l IH]; intros acc; simpl; [now rewrite app_nil_r|].
  rewrite IH. unfold append_new. destruct (existsb (nhe_eqb x) acc) eqn:E.
  - unfold fresh at 2. rewrite E. simpl. rewrite filter_filter. f_equal.
    apply filter_same. intros y Hy. unfold other. destruct (nhe_dec x y) as [->|N]; simpl; auto.
    unfold fresh. now rewrite E.
  - unfold fresh at 2. rewrite E. simpl. rewrite <- app_assoc. f_equal. simpl. f_equal.
    rewrite filter_filter. apply filter_same. intros y Hy. unfold fresh, other.
    rewrite existsb_app. simpl. destruct (nhe_dec x y) as [->|N]; simpl.
    + assert (K : nhe_eqb y y = true) by (now apply nhe_eqb_true). rewrite K.
      rewrite orb_true_r. reflexivity.
    + destruct (nhe_eqb y x) eqn:K; [apply nhe_eqb_true in K; congruence|].
      now rewrite orb_false_r.
Qed.

Lemma filter_true_id : forall A (p : A -> bool) l, (forall x, p x = true) -> filter p l = l.
Proof. induction l as [|x l IH]; intros H; simpl; auto. now rewrite H, IH. Qed.

Lemma fold_append_nil : forall l, fold_left append_new l [] = uniq l.
Proof. intros l. rewrite fold_append. simpl. apply filter_true_id. intros x. reflexivity. Qed.

Lemma uniq_In : forall l x, In x (uniq l) <-> In x l.
Proof.
  induction l as [|y l IH]; intros x; simpl; [tauto|]. rewrite filter_In, IH. unfold other.
  destruct (nhe_dec y x) as [->|N]; intuition congruence.
Qed.

Lemma uniq_NoDup : forall l, NoDup (uniq l).
Proof.
  induction l as [|y l IH]; simpl; constructor.
  - rewrite filter_In. unfold other. destruct (nhe_dec y y); intuition congruence.
  - now apply NoDup_filter.
Qed.

Lemma uniq_nil : forall l, uniq l = [] <-> l = [].
Proof. destruct l; simpl; split; congruence. Qed.

Lemma uniq_id : forall l, NoDup l -> uniq l = l.
Proof.
  induction l as [|x l IH]; intros H; simpl; auto. inversion H; subst. rewrite IH by auto. f_equal.
  assert (K : forall l', ~ In x l' -> filter (other x) l' = l').
  { induction l' as [|y l' IH']; intros N; simpl; auto. unfold other at 1.
    destruct (nhe_dec x y) as [->|M]; [exfalso; apply N; left; auto|].
    f_equal. apply IH'. intros C. apply N. right; auto. }
  now apply K.
Qed.

(* ---- address extraction ---- *)

Lemma extract_one_none : forall k v, extract_one ipif k v = None <-> ~ good_val v.
Proof.
  intros k [[s|b]|]; simpl; try (split; [discriminate|tauto]).
  destruct (ipif s) as [[h n]|].
  - split; [discriminate|]. intros H. exfalso. apply H. discriminate.
  - split; auto.
Qed.

Lemma extract_none : forall k d, extract_af_info ipif k d = None <-> ~ good_addr d.
Proof.
  intros k d. unfold extract_af_info, good_addr.
  destruct (extract_one ipif k (a4 d)) eqn:E4.
  - assert (G4 : good_val (a4 d)).
    { destruct (a4 d) as [[s|b]|]; simpl in *; auto. destruct (ipif s); congruence. }
    destruct (extract_one ipif k (a6 d)) eqn:E6.
    + assert (G6 : good_val (a6 d)).
      { destruct (a6 d) as [[s|b]|]; simpl in *; auto. destruct (ipif s); congruence. }
      split; [discriminate|tauto].
    + apply extract_one_none in E6. split; auto. tauto.
  - apply extract_one_none in E4. split; auto. tauto.
Qed.

Lemma extract_some : forall k d a, extract_af_info ipif k d = Some a -> good_addr d.
Proof.
  intros k d a H. destruct (a4 d) as [[s|b]|] eqn:E4; destruct (a6 d) as [[s'|b']|] eqn:E6;
    unfold extract_af_info, good_addr in *; rewrite E4, E6 in *; simpl in *;
    repeat match goal with |- context [ipif ?x] => destruct (ipif x) as [[? ?]|] end;
    repeat split; try discriminate; auto.
Qed.

Lemma extract_good : forall k d, good_addr d -> exists a, extract_af_info ipif k d = Some a.
Proof.
  intros k d G. destruct (extract_af_info ipif k d) eqn:E; eauto. apply extract_none in E. contradiction.
Qed.

(* the next hop created from extracted host addresses *)
Lemma create_hop : forall xv d a nm, extract_af_info ipif false d = Some a ->
  create_nexthop_data xv a nm = if has_af (host_af d) then Some (mk_nhe (host_af d) nm xv) else None.
Proof.
  intros xv d a nm H. unfold extract_af_info in H.
  destruct (extract_one ipif false (a4 d)) as [x|] eqn:E4; [|discriminate].
  destruct (extract_one ipif false (a6 d)) as [y|] eqn:E6; [|discriminate].
  inversion H; subst. unfold create_nexthop_data, host_af, has_af. simpl.
  destruct (a4 d) as [[s|b]|]; simpl in *;
    [destruct (ipif s) as [[h n]|]; [|discriminate]| |]; inversion E4; subst; simpl;
    (destruct (a6 d) as [[s'|b']|]; simpl in *;
      [destruct (ipif s') as [[h' n']|]; [|discriminate]| |]; inversion E6; subst; simpl; reflexivity).
Qed.

Lemma add_hop : forall xv d a i acc, extract_af_info ipif false d = Some a ->
  match create_nexthop_data xv a (i_name i) with Some h => append_new acc h | None => acc end
  = fold_left append_new (hop_of i xv d) acc.
Proof.
  intros xv d a i acc H. rewrite (create_hop xv d a _ H). unfold hop_of.
  destruct (has_af (host_af d)); reflexivity.
Qed.

(* ---- node next hops ---- *)

Definition ngb_hops n xv i l :=
  flat_map (fun g => if String.eqb (n_node g) n then hop_of i xv (n_addr g) else []) l.

Lemma node_ngbs_closed : forall n v xv i l acc fd st, node_ngbs ipif n v xv i l (acc, fd) = Some st ->
  st = ((if in_vrf v i then fold_left append_new (ngb_hops n xv i l) acc else acc),
        fd || existsb (fun g => String.eqb (n_node g) n) l)
  /\ (in_vrf v i = true -> forall g, In g l -> n_node g = n -> good_addr (n_addr g)).
Proof.
  intros n v xv i. induction l as [|g l IH]; intros acc fd st H; simpl in H.
  - inversion H; subst. rewrite orb_false_r. simpl.
    split; [destruct (in_vrf v i); auto|]. intros _ g [].
  - simpl. destruct (String.eqb (n_node g) n) eqn:E; simpl in H.
    + rewrite opt_eqb_in_vrf in H. destruct (in_vrf v i) eqn:V; simpl in H.
      * destruct (extract_af_info ipif false (n_addr g)) as [a|] eqn:X; [|discriminate].
        rewrite (add_hop xv (n_addr g) a i acc X) in H. apply IH in H. destruct H as [-> H].
        split.
        { rewrite fold_left_app. simpl. now rewrite orb_true_r. }
        { intros _ g' [<-|Hg] Hn; auto. now apply extract_some in X. }
      * apply IH in H. destruct H as [-> H]. split; [simpl; now rewrite orb_true_r|]. discriminate.
    + apply IH in H. destruct H as [-> H]. split; [reflexivity|].
      intros V g' [<-|Hg] Hn; auto. apply String.eqb_neq in E. contradiction.
Qed.

Lemma node_ngbs_ok : forall n v xv i l st,
  (in_vrf v i = true -> forall g, In g l -> n_node g = n -> good_addr (n_addr g)) ->
  exists st', node_ngbs ipif n v xv i l st = Some st'.
Proof.
  intros n v xv i. induction l as [|g l IH]; intros st H; simpl; eauto.
  destruct (String.eqb (n_node g) n) eqn:E; simpl.
  - apply String.eqb_eq in E. rewrite opt_eqb_in_vrf. destruct (in_vrf v i) eqn:V; simpl.
    + destruct (extract_good false (n_addr g)) as [a X]; [apply H; auto; left; auto|]. rewrite X.
      apply IH. intros _ g' Hg. apply H; auto. right; auto.
    + apply IH. discriminate.
  - apply IH. intros V g' Hg. apply H; auto. right; auto.
Qed.

Lemma node_hops_closed : forall n v xv ifs acc fd st, node_hops ipif n v xv ifs (acc, fd) = Some st ->
  st = (fold_left append_new (node_all n v xv ifs) acc, fd || is_neighbor n ifs)
  /\ (forall i g, In i ifs -> in_vrf v i = true -> In g (i_ngb i) -> n_node g = n -> good_addr (n_addr g)).
Proof.
  intros n v xv. induction ifs as [|i ifs IH]; intros acc fd st H; simpl in H.
  - inversion H; subst. simpl. rewrite orb_false_r. split; auto. intros i g [].
  - destruct (node_ngbs ipif n v xv i (i_ngb i) (acc, fd)) as [[acc1 fd1]|] eqn:E; [|discriminate].
    apply node_ngbs_closed in E. destruct E as [E G]. inversion E; subst.
    apply IH in H. destruct H as [-> H]. split.
    + unfold node_all, is_neighbor. simpl. rewrite orb_assoc. f_equal.
      destruct (in_vrf v i); simpl; auto. rewrite fold_left_app. reflexivity.
    + intros i' g [<-|Hi] V Hg Hn; eauto.
Qed.

Lemma node_hops_ok : forall n v xv ifs st,
  (forall i g, In i ifs -> in_vrf v i = true -> In g (i_ngb i) -> n_node g = n -> good_addr (n_addr g)) ->
  exists st', node_hops ipif n v xv ifs st = Some st'.
Proof.
  intros n v xv. induction ifs as [|i ifs IH]; intros st H; simpl; eauto.
  destruct (node_ngbs_ok n v xv i (i_ngb i) st) as [st' E].
  { intros V g Hg Hn. apply (H i g); auto. left; auto. }
  rewrite E. apply IH. intros i' g Hi. apply H. right; auto.
Qed.

(* ---- directly connected next hops ---- *)

Variable inside : string -> string -> option bool.

(* The interfaces of the VRF with a text address of the family *)
Definition addr_in (f : af) (i : sintf) : option string := str_of (aget f (i_addr i)).
(* The interface subnet contains the next hop *)
Definition connected (f : af) (a : string) (v : option string) (i : sintf) : bool :=
  in_vrf v i &&
  match addr_in f i with
  | Some s => match inside a s with Some true => true | _ => false end
  | None => false
  end.
Definition direct_all (f : af) (a : string) (v : option string) (xv : option (option string)) (ifs : list sintf) : list nhe :=
  map (fun i => mk_nhe (aset f a no_af) (i_name i) xv) (filter (connected f a v) ifs).

Lemma direct_hops_closed : forall f a v xv ifs acc l, direct_hops inside f a v xv ifs acc = Some l ->
  l = fold_left append_new (direct_all f a v xv ifs) acc.
Proof.
  intros f a v xv. induction ifs as [|i ifs IH]; intros acc l H; simpl in H.
  - inversion H; subst. reflexivity.
  - unfold direct_all. simpl. unfold connected at 1, addr_in.
    destruct (aget f (i_addr i)) as [[s|b]|] eqn:E; simpl.
    + rewrite opt_eqb_in_vrf in H. destruct (in_vrf v i); simpl in *; [|apply IH in H; auto].
      destruct (inside a s) as [[|]|] eqn:I; [| |discriminate]; simpl; apply IH in H; auto.
    + rewrite andb_false_r. apply IH in H; auto.
    + rewrite andb_false_r. apply IH in H; auto.
Qed.

Lemma direct_hops_ok : forall f a v xv ifs acc,
  (forall i s, In i ifs -> in_vrf v i = true -> aget f (i_addr i) = Some (AStr s) -> inside a s <> None) ->
  exists l, direct_hops inside f a v xv ifs acc = Some l.
Proof.
  intros f a v xv. induction ifs as [|i ifs IH]; intros acc H; simpl; eauto.
  assert (H' : forall i0 s, In i0 ifs -> in_vrf v i0 = true -> aget f (i_addr i0) = Some (AStr s) -> inside a s <> None)
    by (intros i0 s Hi; apply H; right; auto).
  destruct (aget f (i_addr i)) as [[s|b]|] eqn:E; auto.
  rewrite opt_eqb_in_vrf. destruct (in_vrf v i) eqn:V; simpl; auto.
  destruct (inside a s) as [[|]|] eqn:I; auto. exfalso. apply (H i s); auto. left; auto.
Qed.

(* The next hops of the address families of the route *)
Definition direct_spec (r : route) (x : nexthop) (ifs : list sintf) : list nhe :=
  flat_map (fun f => match aget f (r_addr r), str_of (aget f (x_addr x)) with
                     | Some _, Some a => direct_all f a (nh_vrf r x) (x_vrf x) ifs
                     | _, _ => []
                     end) af_list.

Lemma resolve_intf_closed : forall todo r x ifs acc l, resolve_nexthop_intf ipif inside todo r x ifs acc = Some l ->
  l = fold_left append_new
        (flat_map (fun f => match aget f (r_addr r), str_of (aget f (x_addr x)) with
                     | Some _, Some a => direct_all f a (nh_vrf r x) (x_vrf x) ifs
                     | _, _ => []
                     end) todo) acc
  /\ forall f, In f todo -> aget f (r_addr r) <> None -> is_str (aget f (x_addr x)) = true.
Proof.
  induction todo as [|f todo IH]; intros r x ifs acc l H; simpl in H.
  - inversion H; subst. split; [reflexivity|intros f []].
  - simpl. destruct (aget f (r_addr r)) as [p|] eqn:R.
    + destruct (aget f (x_addr x)) as [[a|b]|] eqn:X; try discriminate.
      destruct (ipif a) as [hn|]; [|discriminate].
      destruct (direct_hops inside f a (nh_vrf r x) (x_vrf x) ifs acc) as [acc'|] eqn:D; [|discriminate].
      apply direct_hops_closed in D. subst. apply IH in H. destruct H as [-> H].
      simpl. rewrite fold_left_app. split; auto. intros f' [<-|Hf] HR; auto. now rewrite X.
    + apply IH in H. destruct H as [-> H]. split; auto. intros f' [<-|Hf] HR; auto.
Qed.

End Ip.
