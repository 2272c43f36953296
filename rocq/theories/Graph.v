(* Finite graph lemmas shared by the dependency sort and the group code. *)
From Coq Require Import String Lia Bool List Relations Permutation Sorted.
From Verif Require Import Base.
Import ListNotations.

(* consecutive elements are related *)
Fixpoint chain {A} (R : A -> A -> Prop) (l : list A) : Prop :=
  match l with
  | [] => True
  | [_] => True
  | x :: ((y :: _) as r) => R x y /\ chain R r
  end.

Lemma chain_cons : forall A (R : A -> A -> Prop) x y r,
  chain R (x :: y :: r) <-> R x y /\ chain R (y :: r).
Proof. reflexivity. Qed.

Lemma chain_tail : forall A (R : A -> A -> Prop) x r, chain R (x :: r) -> chain R r.
Proof. intros A R x [|y r] H; simpl in *; tauto. Qed.

Lemma chain_app_r : forall A (R : A -> A -> Prop) l r, chain R (l ++ r) -> chain R r.
Proof. induction l as [|x l IH]; simpl app; intros r H; auto. apply IH. eapply chain_tail; eauto. Qed.

Lemma chain_tc : forall A (R : A -> A -> Prop) l x y,
  chain R (x :: l ++ [y]) -> clos_trans A R x y.
Proof.
  induction l as [|z l IH]; intros x y H.
  - simpl in H. apply t_step. tauto.
  - simpl app in H. rewrite chain_cons in H. destruct H as [H1 H2].
    eapply t_trans; [apply t_step; eauto|]. apply IH. auto.
Qed.

Lemma dup_split : forall (l : list string),
  ~ NoDup l -> exists x a b c, l = a ++ x :: b ++ x :: c.
Proof.
  induction l as [|x l IH]; intros H.
  - exfalso. apply H. constructor.
  - destruct (in_dec string_dec x l) as [Hin|Hin].
    + apply in_split in Hin. destruct Hin as [b [c ->]]. exists x, [], b, c. reflexivity.
    + destruct IH as [y [a [b [c ->]]]].
      * intros N. apply H. constructor; auto.
      * exists y, (x :: a), b, c. reflexivity.
Qed.

Lemma too_long_dup : forall (l nodes : list string),
  incl l nodes -> length nodes < length l -> ~ NoDup l.
Proof.
  intros l nodes I L N. apply NoDup_incl_length in I; auto. lia.
Qed.

Lemma chain_incl : forall A (R R' : A -> A -> Prop) l,
  (forall x y, R x y -> R' x y) -> chain R l -> chain R' l.
Proof.
  induction l as [|x [|y r] IH]; intros H C; auto.
  rewrite chain_cons in *. destruct C as [C1 C2]. split; auto.
Qed.

(* A long walk inside a finite set contains a cycle. *)
Lemma long_chain_cycle : forall (R : string -> string -> Prop) l nodes,
  incl l nodes -> length nodes < length l -> chain R l ->
  exists x, In x l /\ clos_trans string R x x.
Proof.
  intros R l nodes I L C. pose proof (too_long_dup l nodes I L) as N.
  apply dup_split in N. destruct N as [x [a [b [c ->]]]].
  exists x. split; [apply in_app_iff; right; left; auto|].
  apply chain_app_r in C.
  assert (C' : chain R (x :: b ++ [x])).
  { clear -C. revert x C. induction b as [|z b IH]; intros x C.
    - simpl in *. destruct c; tauto.
    - simpl app in *. rewrite chain_cons in *. destruct C as [C1 C2]. split; auto.
      clear IH C1. revert z C2. induction b as [|w b IH]; intros z C2.
      + simpl in *. destruct c; tauto.
      + simpl app in *. rewrite chain_cons in *. destruct C2; split; auto. }
  eapply chain_tc; eauto.
Qed.

(* If every element of a non-empty finite set has a successor in the set, there is a cycle. *)
Lemma no_sink_cycle : forall (R : string -> string -> Prop) (nodes : list string),
  nodes <> [] ->
  (forall x, In x nodes -> exists y, In y nodes /\ R x y) ->
  exists x, In x nodes /\ clos_trans string (fun a b => R a b /\ In a nodes /\ In b nodes) x x.
Proof.
  intros R nodes Ne H.
  assert (W : forall n x, In x nodes -> exists l, length l = n /\ incl (x :: l) nodes /\
             chain (fun a b => R a b /\ In a nodes /\ In b nodes) (x :: l)).
  { induction n as [|n IH]; intros x Hx.
    - exists []. split; auto. split; [intros y [<-|[]]; auto|simpl; auto].
    - destruct (H x Hx) as [y [Hy Rxy]]. destruct (IH y Hy) as [l [L1 [L2 L3]]].
      exists (y :: l). split; [simpl; auto|]. split.
      + intros z [<-|Hz]; auto.
      + rewrite chain_cons. auto. }
  destruct nodes as [|x0 ns] eqn:E; [contradiction|]. rewrite <- E in *.
  assert (Hx0 : In x0 nodes) by (rewrite E; left; auto).
  destruct (W (length nodes) x0 Hx0) as [l [L1 [L2 L3]]].
  destruct (long_chain_cycle (fun a b => R a b /\ In a nodes /\ In b nodes) (x0 :: l) nodes L2) as [x [Hx C]]; [simpl; lia|auto|].
  exists x. split; auto.
Qed.

Lemma tc_incl : forall A (R R' : A -> A -> Prop) x y,
  (forall a b, R a b -> R' a b) -> clos_trans A R x y -> clos_trans A R' x y.
Proof.
  induction 2; [apply t_step; auto|eapply t_trans; eauto].
Qed.

Lemma tc_first : forall A (R : A -> A -> Prop) x y,
  clos_trans A R x y -> exists z, R x z /\ (z = y \/ clos_trans A R z y).
Proof.
  intros A R x y H. apply clos_trans_t1n in H. destruct H as [y H|z y H1 H2].
  - exists y. auto.
  - exists z. split; auto. right. now apply clos_t1n_trans.
Qed.

(* sorted(list of names): insertion sort by the code-point order of strings *)
Fixpoint insertS (x : string) (l : list string) : list string :=
  match l with
  | [] => [x]
  | y :: r => if String.leb x y then x :: l else y :: insertS x r
  end.

Fixpoint sortS (l : list string) : list string :=
  match l with
  | [] => []
  | x :: r => insertS x (sortS r)
  end.

Lemma insertS_perm : forall x l, Permutation (x :: l) (insertS x l).
Proof.
  induction l as [|y r IH]; simpl; auto. destruct (String.leb x y); auto.
  rewrite perm_swap. constructor. auto.
Qed.

Lemma sortS_perm : forall l, Permutation l (sortS l).
Proof.
  induction l as [|x r IH]; simpl; auto. rewrite <- insertS_perm. constructor; auto.
Qed.

Definition le_str (a b : string) : Prop := String.leb a b = true.

Lemma insertS_sorted : forall x l, LocallySorted le_str l -> LocallySorted le_str (insertS x l).
Proof.
  induction l as [|y r IH]; simpl; intros H; [constructor|].
  destruct (String.leb x y) eqn:E.
  - constructor; auto.
  - assert (Hyx : le_str y x).
    { unfold le_str. destruct (String.leb_total x y); congruence. }
    assert (Hr : LocallySorted le_str r) by (inversion H; subst; [constructor|auto]).
    specialize (IH Hr). destruct r as [|z r]; simpl in *.
    + constructor; auto.
    + inversion H; subst. destruct (String.leb x z) eqn:E2; constructor; auto.
Qed.

Lemma sortS_sorted : forall l, LocallySorted le_str (sortS l).
Proof. induction l as [|x r IH]; simpl; [constructor|]. now apply insertS_sorted. Qed.
