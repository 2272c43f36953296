(* Shared definitions and list lemmas. Nothing in this file models netlab code:
   it holds the vocabulary used by the models and their specifications. *)
From Coq Require Import String ZArith Lia Bool Arith List Permutation.
Import ListNotations.
Set Implicit Arguments.

(* Outcome of a Python computation: a value or a fatal error (exception). *)
Inductive result (E A : Type) : Type :=
| Ok (a : A)
| Err (e : E).
Arguments Ok {E A} a.
Arguments Err {E A} e.

(* Membership in a list of integers (Python "in" on a set or a list of ints). *)
Definition memZ (x : Z) (l : list Z) : bool := existsb (Z.eqb x) l.

Lemma memZ_true : forall x l, memZ x l = true <-> In x l.
Proof.
  intros x l; unfold memZ; rewrite existsb_exists; split.
  - intros [y [Hy He]]. apply Z.eqb_eq in He. now subst.
  - intros H; exists x; split; auto. apply Z.eqb_refl.
Qed.

Lemma memZ_false : forall x l, memZ x l = false <-> ~ In x l.
Proof.
  intros x l. rewrite <- memZ_true. destruct (memZ x l); intuition congruence.
Qed.

(* Membership in a list of strings. *)
Definition memS (x : string) (l : list string) : bool := existsb (String.eqb x) l.

Lemma memS_true : forall x l, memS x l = true <-> In x l.
Proof.
  intros x l; unfold memS; rewrite existsb_exists; split.
  - intros [y [Hy He]]. apply String.eqb_eq in He. now subst.
  - intros H; exists x; split; auto. apply String.eqb_refl.
Qed.

Lemma memS_false : forall x l, memS x l = false <-> ~ In x l.
Proof.
  intros x l. rewrite <- memS_true. destruct (memS x l); intuition congruence.
Qed.

(* Membership in a list of naturals. *)
Definition memN (x : nat) (l : list nat) : bool := existsb (Nat.eqb x) l.

Lemma memN_true : forall x l, memN x l = true <-> In x l.
Proof.
  intros x l; unfold memN; rewrite existsb_exists; split.
  - intros [y [Hy He]]. apply Nat.eqb_eq in He. now subst.
  - intros H; exists x; split; auto. apply Nat.eqb_refl.
Qed.

Lemma memN_false : forall x l, memN x l = false <-> ~ In x l.
Proof.
  intros x l. rewrite <- memN_true. destruct (memN x l); intuition congruence.
Qed.

(* Association lists with string keys (Python dictionaries, insertion ordered). *)
Definition dict (A : Type) := list (string * A).

Fixpoint dget {A} (k : string) (d : dict A) : option A :=
  match d with
  | [] => None
  | (k', v) :: r => if String.eqb k k' then Some v else dget k r
  end.

Definition dmem {A} (k : string) (d : dict A) : bool :=
  match dget k d with Some _ => true | None => false end.

(* d[k] = v : replace in place or append at the end *)
Fixpoint dset {A} (k : string) (v : A) (d : dict A) : dict A :=
  match d with
  | [] => [(k, v)]
  | (k', v') :: r => if String.eqb k k' then (k', v) :: r else (k', v') :: dset k v r
  end.

Fixpoint dpop {A} (k : string) (d : dict A) : dict A :=
  match d with
  | [] => []
  | (k', v') :: r => if String.eqb k k' then dpop k r else (k', v') :: dpop k r
  end.

Definition dkeys {A} (d : dict A) : list string := map fst d.

Lemma dget_dset_same : forall A k (v : A) d, dget k (dset k v d) = Some v.
Proof.
  induction d as [|[k' v'] r IH]; simpl.
  - now rewrite String.eqb_refl.
  - destruct (String.eqb k k') eqn:E; simpl; rewrite E; auto.
Qed.

Lemma dget_dset_other : forall A k k' (v : A) d, k <> k' -> dget k (dset k' v d) = dget k d.
Proof.
  induction d as [|[k2 v2] r IH]; intros Hn; simpl.
  - destruct (String.eqb k k') eqn:E; auto. apply String.eqb_eq in E; contradiction.
  - destruct (String.eqb k' k2) eqn:E; simpl.
    + apply String.eqb_eq in E; subst k2.
      destruct (String.eqb k k') eqn:E2; auto. apply String.eqb_eq in E2; contradiction.
    + destruct (String.eqb k k2); auto.
Qed.

Lemma dget_In : forall A k (v : A) d, dget k d = Some v -> In (k, v) d.
Proof.
  induction d as [|[k' v'] r IH]; simpl; intros H; [discriminate|].
  destruct (String.eqb k k') eqn:E.
  - apply String.eqb_eq in E; subst. left; congruence.
  - right; auto.
Qed.

Lemma dget_None : forall A k (d : dict A), dget k d = None <-> ~ In k (dkeys d).
Proof.
  induction d as [|[k' v'] r IH]; simpl.
  - tauto.
  - destruct (String.eqb k k') eqn:E.
    + apply String.eqb_eq in E; subst. split; [discriminate | intros H; exfalso; apply H; auto].
    + apply String.eqb_neq in E. rewrite IH. split.
      * intros H [H1|H1]; congruence || auto.
      * intros H; auto.
Qed.

Lemma dget_Some_key : forall A k (v : A) d, dget k d = Some v -> In k (dkeys d).
Proof.
  intros A k v d H. apply dget_In in H. apply in_map_iff. now exists (k, v).
Qed.

Lemma dget_NoDup : forall A k (v : A) d, NoDup (dkeys d) -> In (k, v) d -> dget k d = Some v.
Proof.
  induction d as [|[k' v'] r IH]; simpl; intros ND H; [contradiction|].
  inversion ND as [|? ? Hn Hr]; subst.
  destruct H as [H|H].
  - inversion H; subst. now rewrite String.eqb_refl.
  - destruct (String.eqb k k') eqn:E; auto.
    apply String.eqb_eq in E; subst. exfalso; apply Hn. apply in_map_iff. now exists (k', v).
Qed.

Lemma dmem_true : forall A k (d : dict A), dmem k d = true <-> In k (dkeys d).
Proof.
  intros A k d; unfold dmem. destruct (dget k d) eqn:E.
  - split; auto. intros _. eapply dget_Some_key; eauto.
  - apply dget_None in E. split; [discriminate | contradiction].
Qed.

Lemma dkeys_dset_mem : forall A k (v : A) d, In k (dkeys d) -> dkeys (dset k v d) = dkeys d.
Proof.
  induction d as [|[k' v'] r IH]; simpl; intros H; [contradiction|].
  destruct (String.eqb k k') eqn:E; simpl; auto.
  destruct H as [H|H].
  - subst. rewrite String.eqb_refl in E; discriminate.
  - f_equal; auto.
Qed.

Lemma dkeys_dset_new : forall A k (v : A) d, ~ In k (dkeys d) -> dkeys (dset k v d) = dkeys d ++ [k].
Proof.
  induction d as [|[k' v'] r IH]; simpl; intros H; auto.
  destruct (String.eqb k k') eqn:E; simpl.
  - apply String.eqb_eq in E; subst. exfalso; auto.
  - f_equal; auto.
Qed.

Lemma NoDup_dset : forall A k (v : A) d, NoDup (dkeys d) -> NoDup (dkeys (dset k v d)).
Proof.
  intros A k v d H. destruct (in_dec string_dec k (dkeys d)) as [Hi|Hi].
  - now rewrite dkeys_dset_mem.
  - rewrite dkeys_dset_new; auto. apply Permutation_NoDup with (k :: dkeys d).
    + apply Permutation_cons_append.
    + constructor; auto.
Qed.

Lemma dget_dpop_same : forall A k (d : dict A), dget k (dpop k d) = None.
Proof.
  induction d as [|[k' v'] r IH]; simpl; auto.
  destruct (String.eqb k k') eqn:E; simpl; auto. now rewrite E.
Qed.

Lemma dget_dpop_other : forall A k k' (d : dict A), k <> k' -> dget k (dpop k' d) = dget k d.
Proof.
  induction d as [|[k2 v2] r IH]; simpl; intros H; auto.
  destruct (String.eqb k' k2) eqn:E.
  - apply String.eqb_eq in E; subst k2.
    destruct (String.eqb k k') eqn:E2; auto. apply String.eqb_eq in E2; contradiction.
  - simpl. destruct (String.eqb k k2); auto.
Qed.

(* NoDup helpers *)
Lemma NoDup_app_intro : forall A (l1 l2 : list A),
  NoDup l1 -> NoDup l2 -> (forall x, In x l1 -> ~ In x l2) -> NoDup (l1 ++ l2).
Proof.
  induction l1 as [|a r IH]; simpl; intros l2 H1 H2 Hd; auto.
  inversion H1; subst. constructor.
  - rewrite in_app_iff. intros [H|H]; [contradiction|]. eapply Hd; eauto.
  - apply IH; auto. 
Qed.

Lemma NoDup_app_elim : forall A (l1 l2 : list A),
  NoDup (l1 ++ l2) -> NoDup l1 /\ NoDup l2 /\ (forall x, In x l1 -> ~ In x l2).
Proof.
  induction l1 as [|a r IH]; simpl; intros l2 H.
  - repeat split; auto. constructor.
  - inversion H; subst. destruct (IH _ H3) as [Ha [Hb Hc]]. rewrite in_app_iff in H2.
    repeat split; auto.
    + constructor; auto.
    + intros x [Hx|Hx] Hi; subst; [apply H2; auto | eapply Hc; eauto].
Qed.

(* pigeonhole on lists *)
Lemma incl_NoDup_length : forall A (l l' : list A),
  NoDup l -> incl l l' -> length l <= length l'.
Proof. intros; eapply NoDup_incl_length; eauto. Qed.

Fixpoint zseq (start : Z) (n : nat) : list Z :=
  match n with 0 => [] | S m => start :: zseq (start + 1) m end.

Lemma zseq_In : forall n s x, In x (zseq s n) <-> (s <= x < s + Z.of_nat n)%Z.
Proof.
  induction n as [|n IH]; intros s x; cbn [zseq In].
  - lia.
  - rewrite IH. lia.
Qed.

Lemma zseq_NoDup : forall n s, NoDup (zseq s n).
Proof.
  induction n; intros s; cbn [zseq]; constructor; auto.
  rewrite zseq_In. lia.
Qed.

Lemma zseq_length : forall n s, length (zseq s n) = n.
Proof. induction n; intros; simpl; auto. Qed.

Lemma zseq_app : forall a b s, zseq s (a + b) = zseq s a ++ zseq (s + Z.of_nat a) b.
Proof.
  induction a as [|a IH]; intros b s.
  - simpl. f_equal. lia.
  - cbn [Nat.add zseq app]. f_equal. rewrite IH. do 2 f_equal. lia.
Qed.

Lemma nth_error_zseq : forall n s i, i < n -> nth_error (zseq s n) i = Some (s + Z.of_nat i)%Z.
Proof.
  induction n as [|n IH]; intros s i H; [lia|].
  destruct i as [|i]; cbn [zseq nth_error].
  - f_equal. lia.
  - rewrite IH by lia. f_equal. lia.
Qed.

Lemma NoDup_map_inj : forall A B (f : A -> B) l,
  (forall x y, In x l -> In y l -> f x = f y -> x = y) -> NoDup l -> NoDup (map f l).
Proof.
  induction l as [|a r IH]; simpl; intros Hi ND; constructor; inversion ND; subst.
  - intros H. apply in_map_iff in H. destruct H as [b [Hb Hin]].
    assert (b = a) by (apply Hi; auto). subst; contradiction.
  - apply IH; auto.
Qed.

Lemma NoDup_map_inv_in : forall A B (f : A -> B) l x y,
  NoDup (map f l) -> In x l -> In y l -> f x = f y -> x = y.
Proof.
  induction l as [|a r IH]; simpl; intros x y ND Hx Hy He; [contradiction|].
  inversion ND as [|? ? Hn Hr]; subst.
  destruct Hx as [Hx|Hx]; destruct Hy as [Hy|Hy]; subst; auto.
  - exfalso; apply Hn. rewrite He. now apply in_map.
  - exfalso; apply Hn. rewrite <- He. now apply in_map.
Qed.

Lemma Forall2_length : forall A B (R : A -> B -> Prop) l l',
  Forall2 R l l' -> length l = length l'.
Proof. induction 1; simpl; auto. Qed.
