(* Properties C30, C31, C32, C62: the lab status file and the working-directory lock. *)
From Coq Require Import String Ascii ZArith Lia Bool List.
From Verif Require Import Base Mod_Model Mod_Props Status_Model.
Import ListNotations.
Open Scope nat_scope.

(* ---------- C31: change_status ---------- *)

Section Serial.
Variable A : Type.
Variable empty : A.
Variable upd : nat -> A -> option A.

Notation fstate := (fstate A).
Notation frun := (frun A empty upd).
Notation fstep := (fstep A empty upd).
Notation finit := (finit A).

(* processes in the order in which they got the lock *)
Definition acquired (tr : list fevent) : list nat :=
  flat_map (fun e => match e with Acquire p => [p] | _ => [] end) tr.

Definition wrote (p : nat) (tr : list fevent) : bool :=
  existsb (fun e => match e with Write q => Nat.eqb q p | _ => false end) tr.

(* the updates of a list of processes, one after another *)
Fixpoint apply_all (l : list nat) (a : A) : option A :=
  match l with
  | [] => Some a
  | p :: r => match upd p a with Some a' => apply_all r a' | None => None end
  end.

Definition content (f : file A) : A := match f with Good a => a | _ => empty end.

Definition no_reset (tr : list fevent) : Prop := ~ In Reset tr.

Lemma frun_app : forall tr s e, frun s (tr ++ [e]) = match frun s tr with Some s' => fstep s' e | None => None end.
Proof.
  induction tr as [|x tr IH]; intros s e.
  - simpl. destruct (fstep s e); auto.
  - cbn [app Status_Model.frun]. destruct (fstep s x); auto.
Qed.

Lemma apply_all_app : forall l a p, apply_all (l ++ [p]) a = match apply_all l a with Some b => upd p b | None => None end.
Proof.
  induction l as [|x l IH]; intros a p; cbn [app apply_all].
  - destruct (upd p a); auto.
  - destruct (upd x a); auto.
Qed.

Definition writes (tr : list fevent) : list nat :=
  flat_map (fun e => match e with Write p => [p] | _ => [] end) tr.

Lemma wrote_In : forall p tr, wrote p tr = true <-> In p (writes tr).
Proof.
  intros p tr. unfold wrote, writes. rewrite existsb_exists, in_flat_map. split.
  - intros [e [I E]]. exists e. split; auto. destruct e; try discriminate. apply Nat.eqb_eq in E. subst. left. auto.
  - intros [e [I E]]. exists e. split; auto. destruct e; try contradiction. destruct E as [->|[]]. apply Nat.eqb_refl.
Qed.

Lemma acquired_app : forall tr e, acquired (tr ++ [e]) = acquired tr ++ match e with Acquire p => [p] | _ => [] end.
Proof. intros. unfold acquired. rewrite flat_map_app. simpl. rewrite app_nil_r. auto. Qed.

Lemma writes_app : forall tr e, writes (tr ++ [e]) = writes tr ++ match e with Write p => [p] | _ => [] end.
Proof. intros. unfold writes. rewrite flat_map_app. simpl. rewrite app_nil_r. auto. Qed.

Lemma wrote_app : forall p tr e, wrote p (tr ++ [e]) = wrote p tr || match e with Write q => Nat.eqb q p | _ => false end.
Proof. intros. unfold wrote. rewrite existsb_app. simpl. rewrite orb_false_r. auto. Qed.

Definition critical (x : phase A) : bool :=
  match x with Locked | HaveRead _ | Opened _ | Written => true | _ => false end.

(* file content is a0 before any update *)
Definition settled (f0 : file A) (tr : list fevent) (a : A) (f : file A) : Prop :=
  (writes tr = [] /\ f = f0) \/ (writes tr <> [] /\ f = Good a).

Record finv (f0 : file A) (tr : list fevent) (s : fstate) : Prop := {
  fi_lock : forall p, critical (f_phase s p) = true <-> f_lock s = Some p;
  fi_waiting : forall p, f_phase s p = Waiting -> ~ In p (acquired tr);
  fi_NoDup : NoDup (acquired tr);
  fi_last : forall p, f_lock s = Some p -> exists l, acquired tr = l ++ [p];
  fi_written : forall p, In p (writes tr) -> f_phase s p = Written \/ f_phase s p = Complete \/ f_phase s p = Crashed;
  fi_done : forall p, f_phase s p = Written \/ f_phase s p = Complete -> In p (writes tr);
  fi_acq : forall p, In p (writes tr) -> In p (acquired tr);
  fi_order : filter (fun p => wrote p tr) (acquired tr) = writes tr;
  fi_content : exists a, apply_all (writes tr) (content f0) = Some a /\
     (forall p a', f_phase s p = HaveRead a' -> upd p a = Some a' /\ settled f0 tr a (f_file s)) /\
     (forall p a', f_phase s p = Opened a' -> upd p a = Some a' /\ f_file s = Torn) /\
     (f_file s = Torn \/ settled f0 tr a (f_file s)) /\
     (forall p, f_phase s p = Written -> settled f0 tr a (f_file s))
}.

Lemma set_phase_same : forall p x (f : nat -> phase A), set_phase A p x f p = x.
Proof. intros. unfold set_phase. rewrite Nat.eqb_refl. auto. Qed.
Lemma set_phase_other : forall p q x (f : nat -> phase A), q <> p -> set_phase A p x f q = f q.
Proof. intros. unfold set_phase. destruct (Nat.eqb_spec q p); congruence. Qed.

(* a step that only changes the phase of p, possibly releasing the lock *)
Lemma finv_init : forall f0, finv f0 [] (finit f0).
Proof.
  intros f0. constructor; simpl.
  - intros p. split; discriminate.
  - auto.
  - constructor.
  - discriminate.
  - intros p [].
  - intros p [H|H]; discriminate.
  - intros p [].
  - auto.
  - exists (content f0). split; auto. repeat split; try discriminate. right. left. auto.
Qed.

Ltac phase_cases p q :=
  destruct (Nat.eq_dec q p) as [->|?N];
  [rewrite ?set_phase_same in *|rewrite ?set_phase_other in * by auto].

Lemma drop_lock_other : forall p q l, l = Some q -> q <> p -> drop_lock p l = Some q.
Proof. intros p q l -> N. simpl. destruct (Nat.eqb_spec q p); congruence. Qed.

Lemma drop_lock_same : forall p l, l = Some p -> drop_lock p l = None.
Proof. intros p l ->. simpl. rewrite Nat.eqb_refl. auto. Qed.

Lemma drop_lock_inv : forall p q l, drop_lock p l = Some q -> l = Some q /\ q <> p.
Proof.
  intros p q [x|] H; simpl in H; [|discriminate]. destruct (Nat.eqb_spec x p); [discriminate|].
  injection H as <-. auto.
Qed.

(* [x] is the new phase of p; acquired, written processes and the file do not change *)
Lemma finv_quiet : forall f0 tr s e p x l,
  finv f0 tr s ->
  match e with Acquire _ | Write _ | Reset => False | _ => True end ->
  (l = f_lock s /\ critical x = critical (f_phase s p) \/ l = drop_lock p (f_lock s) /\ critical x = false) ->
  x <> Waiting ->
  (In p (writes tr) -> x = Written \/ x = Complete \/ x = Crashed) ->
  (x = Written \/ x = Complete -> In p (writes tr)) ->
  (forall a, x <> HaveRead a) -> (forall a, x <> Opened a) -> (x = Written -> f_phase s p = Written) ->
  finv f0 (tr ++ [e]) (mk_fstate A (f_file s) l (set_phase A p x (f_phase s))).
Proof.
  intros f0 tr s e p x l [I1 I2 I3 I4 I5 I6 I7 I8 I9] E L W Hw Hd HR HO HW.
  assert (Ea : acquired (tr ++ [e]) = acquired tr) by (rewrite acquired_app; destruct e; try contradiction; apply app_nil_r).
  assert (Ew : writes (tr ++ [e]) = writes tr) by (rewrite writes_app; destruct e; try contradiction; apply app_nil_r).
  assert (Eo : forall q, wrote q (tr ++ [e]) = wrote q tr).
  { intros q. rewrite wrote_app. destruct e; try contradiction; apply orb_false_r. }
  constructor; cbn [f_lock f_phase f_file]; rewrite ?Ea, ?Ew; auto.
  - intros q. phase_cases p q.
    + destruct L as [[-> L]|[-> L]]; rewrite L; [apply I1|].
      split; [discriminate|]. intros K. apply drop_lock_inv in K. tauto.
    + destruct L as [[-> L]|[-> L]]; [apply I1|]. rewrite I1. split.
      * intros K. apply drop_lock_other; auto.
      * intros K. apply drop_lock_inv in K. tauto.
  - intros q K. phase_cases p q; [congruence|auto].
  - intros q K. apply I4. destruct L as [[-> _]|[-> _]]; auto. apply drop_lock_inv in K. tauto.
  - intros q K. phase_cases p q; auto.
  - intros q K. phase_cases p q; auto.
  - rewrite <- I8. apply filter_ext. intros q. apply Eo.
  - destruct I9 as [a [C1 [C2 [C3 [C4 C5]]]]]. exists a. split; auto.
    assert (S : forall f, settled f0 tr a f -> settled f0 (tr ++ [e]) a f) by (intros f; unfold settled; rewrite Ew; auto).
    split; [|split; [|split]].
    + intros q a' K. phase_cases p q; [exfalso; exact (HR a' K)|]. destruct (C2 _ _ K). auto.
    + intros q a' K. phase_cases p q; [exfalso; exact (HO a' K)|]. auto.
    + destruct C4; auto.
    + intros q K. phase_cases p q; eauto.
Qed.

Lemma finv_step : forall f0 tr s e s', finv f0 tr s -> e <> Reset -> fstep s e = Some s' -> finv f0 (tr ++ [e]) s'.
Proof.
  intros f0 tr s e s' I E H.
  assert (NW : forall p x, f_phase s p = x -> x <> Written -> x <> Complete -> x <> Crashed -> ~ In p (writes tr)).
  { intros p x <- X1 X2 X3 K. destruct (fi_written _ _ _ I p K) as [|[|]]; tauto. }
  destruct e as [p|p|p|p|p|p|p|]; cbn [Status_Model.fstep] in H; try congruence.
  - (* acquire *)
    destruct (f_phase s p) eqn:F; try discriminate. destruct (f_lock s) as [q|] eqn:L; [discriminate|]. injection H as <-.
    destruct I as [I1 I2 I3 I4 I5 I6 I7 I8 I9].
    assert (Ew : writes (tr ++ [Acquire p]) = writes tr) by (rewrite writes_app; apply app_nil_r).
    assert (Nw : ~ In p (writes tr)) by (intros K; apply I7 in K; apply I2 in K; auto).
    constructor; cbn [f_lock f_phase f_file]; rewrite ?Ew, ?acquired_app.
    + intros q. phase_cases p q; [simpl; tauto|]. rewrite I1. rewrite L. split; congruence.
    + intros q K. phase_cases p q; [discriminate|]. rewrite in_app_iff. intros [X|[X|[]]]; [apply I2 in X; auto|congruence].
    + apply NoDup_app_intro; auto; [constructor; auto; constructor|]. intros x X [<-|[]]. apply I2 in X; auto.
    + intros q K. injection K as <-. eauto.
    + intros q K. phase_cases p q; [contradiction|auto].
    + intros q K. phase_cases p q; [destruct K; discriminate|auto].
    + intros q K. apply in_app_iff. auto.
    + rewrite filter_app. cbn [filter].
      assert (Wp : wrote p (tr ++ [Acquire p]) = false).
      { destruct (wrote p (tr ++ [Acquire p])) eqn:X; auto. apply wrote_In in X. rewrite Ew in X. contradiction. }
      rewrite Wp, app_nil_r. rewrite <- I8. apply filter_ext. intros q. rewrite wrote_app. apply orb_false_r.
    + destruct I9 as [a [C1 [C2 [C3 [C4 C5]]]]]. exists a. split; auto.
      assert (S : forall f, settled f0 tr a f -> settled f0 (tr ++ [Acquire p]) a f) by (intros f; unfold settled; rewrite Ew; auto).
      split; [|split; [|split]].
      * intros q a' K. phase_cases p q; [discriminate|]. destruct (C2 _ _ K). auto.
      * intros q a' K. phase_cases p q; [discriminate|]. auto.
      * destruct C4; auto.
      * intros q K. phase_cases p q; [discriminate|]. eauto.
  - (* timeout *)
    destruct (f_phase s p) eqn:F; try discriminate. injection H as <-.
    apply finv_quiet; simpl; auto; try discriminate.
    + left. rewrite F. auto.
    + intros K. exfalso. revert K. eapply NW; [exact F|discriminate..].
    + intros [K|K]; discriminate.
  - (* read *)
    destruct (f_phase s p) eqn:F; try discriminate.
    assert (Cr : f_lock s = Some p) by (apply (fi_lock _ _ _ I); rewrite F; auto).
    set (rd := match f_file s with Missing => Some empty | Good a => Some a | Torn => None end) in H.
    destruct (match rd with Some a => upd p a | None => None end) as [a'|] eqn:U.
    + injection H as <-. destruct I as [I1 I2 I3 I4 I5 I6 I7 I8 I9].
      assert (Ew : writes (tr ++ [Read p]) = writes tr) by (rewrite writes_app; apply app_nil_r).
      assert (Ea : acquired (tr ++ [Read p]) = acquired tr) by (rewrite acquired_app; apply app_nil_r).
      assert (Np : ~ In p (writes tr)) by (eapply NW; [exact F|discriminate..]).
      constructor; cbn [f_lock f_phase f_file]; rewrite ?Ew, ?Ea; auto.
      * intros q. phase_cases p q; [simpl; tauto|apply I1].
      * intros q K. phase_cases p q; [discriminate|auto].
      * intros q K. phase_cases p q; [contradiction|auto].
      * intros q K. phase_cases p q; [destruct K; discriminate|auto].
      * rewrite <- I8. apply filter_ext. intros q. rewrite wrote_app. apply orb_false_r.
      * destruct I9 as [a [C1 [C2 [C3 [C4 C5]]]]]. exists a. split; auto.
        assert (S : forall f, settled f0 tr a f -> settled f0 (tr ++ [Read p]) a f) by (intros f; unfold settled; rewrite Ew; auto).
        assert (St : settled f0 tr a (f_file s) /\ rd = Some a).
        { destruct C4 as [T|C4]; [unfold rd in U; rewrite T in U; discriminate|]. split; auto.
          destruct C4 as [[W X]|[W X]]; unfold rd; rewrite X.
          - rewrite W in C1. simpl in C1. unfold rd in U. rewrite X in U. destruct f0; simpl in *; congruence.
          - auto. }
        destruct St as [St Rd]. rewrite Rd in U.
        split; [|split; [|split]].
        -- intros q b K. phase_cases p q; [|destruct (C2 _ _ K); auto]. injection K as <-. auto.
        -- intros q b K. phase_cases p q; [discriminate|]. auto.
        -- auto.
        -- intros q K. phase_cases p q; [discriminate|]. eauto.
    + injection H as <-. apply finv_quiet; simpl; auto; try discriminate.
      * intros K. exfalso. revert K. eapply NW; [exact F|discriminate..].
      * intros [K|K]; discriminate.
  - (* open *)
    destruct (f_phase s p) as [| |a1| | | | |] eqn:F; try discriminate. injection H as <-.
    assert (Np : ~ In p (writes tr)) by (eapply NW; [exact F|discriminate..]).
    destruct I as [I1 I2 I3 I4 I5 I6 I7 I8 I9].
    assert (Cr : f_lock s = Some p) by (apply I1; rewrite F; auto).
    assert (Ew : writes (tr ++ [Open p]) = writes tr) by (rewrite writes_app; apply app_nil_r).
    assert (Ea : acquired (tr ++ [Open p]) = acquired tr) by (rewrite acquired_app; apply app_nil_r).
    assert (Only : forall q, q <> p -> critical (f_phase s q) = false).
    { intros q N. destruct (critical (f_phase s q)) eqn:X; auto. apply I1 in X. congruence. }
    constructor; cbn [f_lock f_phase f_file]; rewrite ?Ew, ?Ea; auto.
    + intros q. phase_cases p q; [simpl; tauto|apply I1].
    + intros q K. phase_cases p q; [discriminate|auto].
    + intros q K. phase_cases p q; [contradiction|auto].
    + intros q K. phase_cases p q; [destruct K; discriminate|auto].
    + rewrite <- I8. apply filter_ext. intros q. rewrite wrote_app. apply orb_false_r.
    + destruct I9 as [a [C1 [C2 [C3 [C4 C5]]]]]. exists a. split; auto. destruct (C2 _ _ F) as [U _].
      split; [|split; [|split]].
      * intros q b K. phase_cases p q; [discriminate|]. specialize (Only q N). rewrite K in Only. discriminate.
      * intros q b K. phase_cases p q; [|specialize (Only q N); rewrite K in Only; discriminate]. injection K as <-. auto.
      * auto.
      * intros q K. phase_cases p q; [discriminate|]. specialize (Only q N). rewrite K in Only. discriminate.
  - (* write *)
    destruct (f_phase s p) as [| | |a1| | | |] eqn:F; try discriminate. injection H as <-.
    assert (Np : ~ In p (writes tr)) by (eapply NW; [exact F|discriminate..]).
    destruct I as [I1 I2 I3 I4 I5 I6 I7 I8 I9].
    assert (Cr : f_lock s = Some p) by (apply I1; rewrite F; auto).
    assert (Ew : writes (tr ++ [Write p]) = writes tr ++ [p]) by (apply writes_app).
    assert (Ea : acquired (tr ++ [Write p]) = acquired tr) by (rewrite acquired_app; apply app_nil_r).
    assert (Only : forall q, q <> p -> critical (f_phase s q) = false).
    { intros q N. destruct (critical (f_phase s q)) eqn:X; auto. apply I1 in X. congruence. }
    destruct (I4 p Cr) as [l Hl].
    constructor; cbn [f_lock f_phase f_file]; rewrite ?Ew, ?Ea; auto.
    + intros q. phase_cases p q; [simpl; tauto|apply I1].
    + intros q K. phase_cases p q; [discriminate|auto].
    + intros q K. phase_cases p q; [auto|]. apply in_app_iff in K. destruct K as [K|[K|[]]]; [auto|congruence].
    + intros q K. apply in_app_iff. phase_cases p q; [right; left; auto|]. left. auto.
    + intros q K. apply in_app_iff in K. destruct K as [K|[<-|[]]]; auto. rewrite Hl. apply in_app_iff. right. left. auto.
    + rewrite Hl. rewrite filter_app. cbn [filter].
      assert (Wp : wrote p (tr ++ [Write p]) = true) by (apply wrote_In; rewrite Ew; apply in_app_iff; right; left; auto).
      rewrite Wp. f_equal. rewrite <- I8, Hl, filter_app. cbn [filter].
      assert (Wp' : wrote p tr = false) by (destruct (wrote p tr) eqn:X; auto; apply wrote_In in X; contradiction).
      rewrite Wp', app_nil_r. apply filter_ext_in. intros q Q. rewrite wrote_app.
      destruct (Nat.eqb_spec p q) as [<-|]; [|apply orb_false_r]. exfalso. rewrite Hl in I3.
      apply NoDup_app_elim in I3. destruct I3 as [_ [_ I3]]. apply (I3 p Q). left. auto.
    + destruct I9 as [a [C1 [C2 [C3 [C4 C5]]]]]. exists a1. destruct (C3 _ _ F) as [U T].
      assert (St : settled f0 (tr ++ [Write p]) a1 (Good a1)).
      { right. rewrite Ew. split; auto. intros X. apply app_eq_nil in X. destruct X. discriminate. }
      rewrite apply_all_app, C1. split; auto.
      split; [|split; [|split]].
      * intros q b K. phase_cases p q; [discriminate|]. specialize (Only q N). rewrite K in Only. discriminate.
      * intros q b K. phase_cases p q; [discriminate|]. specialize (Only q N). rewrite K in Only. discriminate.
      * auto.
      * intros q K. auto.
  - (* release *)
    destruct (f_phase s p) eqn:F; try discriminate. injection H as <-.
    apply finv_quiet; simpl; auto; try discriminate.
    intros _. apply (fi_done _ _ _ I). auto.
  - (* kill *)
    assert (K : s' = mk_fstate A (f_file s) (drop_lock p (f_lock s)) (set_phase A p Crashed (f_phase s))).
    { destruct (f_phase s p); congruence. }
    subst s'. apply finv_quiet; simpl; auto; try discriminate. intros [K|K]; discriminate.
Qed.

Lemma finv_reachable : forall f0 tr s, no_reset tr -> frun (finit f0) tr = Some s -> finv f0 tr s.
Proof.
  intros f0. induction tr as [|e tr IH] using rev_ind; intros s N H.
  - injection H as <-. apply finv_init.
  - rewrite frun_app in H. destruct (frun (finit f0) tr) as [s1|] eqn:E; [|discriminate].
    eapply finv_step; [apply IH; auto|intros ->; apply N; apply in_app_iff; right; left; auto|exact H].
    intros K. apply N. apply in_app_iff. auto.
Qed.

(* C31: two processes are never between lock.acquire and lock.release at the same time; *)
Theorem updates_exclusive : forall f0 tr s p q, no_reset tr -> frun (finit f0) tr = Some s ->
  critical (f_phase s p) = true -> critical (f_phase s q) = true -> p = q.
Proof.
  intros f0 tr s p q N H Hp Hq. pose proof (finv_reachable _ _ _ N H) as I.
  apply (fi_lock _ _ _ I) in Hp. apply (fi_lock _ _ _ I) in Hq. congruence.
Qed.

(* ... an intact file contains the result of the updates of all processes that wrote it, one
   after another in the order in which they got the lock; *)
Theorem updates_serialized : forall f0 tr s, no_reset tr -> frun (finit f0) tr = Some s -> f_file s <> Torn ->
  let order := filter (fun p => wrote p tr) (acquired tr) in
  exists a, apply_all order (content f0) = Some a /\
    ((order = [] /\ f_file s = f0) \/ (order <> [] /\ f_file s = Good a)).
Proof.
  intros f0 tr s N H T. pose proof (finv_reachable _ _ _ N H) as I. cbn zeta. rewrite (fi_order _ _ _ I).
  destruct (fi_content _ _ _ I) as [a [C1 [_ [_ [C4 _]]]]]. exists a. split; auto. destruct C4; [contradiction|auto].
Qed.

(* ... the update of a process that completed is among them exactly once; *)
Theorem update_not_lost : forall f0 tr s p, no_reset tr -> frun (finit f0) tr = Some s -> f_phase s p = Complete ->
  In p (filter (fun p => wrote p tr) (acquired tr)) /\ NoDup (filter (fun p => wrote p tr) (acquired tr)).
Proof.
  intros f0 tr s p N H C. pose proof (finv_reachable _ _ _ N H) as I. split.
  - rewrite (fi_order _ _ _ I). apply (fi_done _ _ _ I). auto.
  - apply NoDup_filter. apply (fi_NoDup _ _ _ I).
Qed.

(* ... and the file is damaged only while a process is writing it or after a process was
   killed between opening and writing it. *)
Theorem torn_only_by_crash : forall f0 tr s, f0 <> Torn -> frun (finit f0) tr = Some s -> f_file s = Torn ->
  (exists p a, f_phase s p = Opened a) \/
  (exists tr1 p tr2 s1 a, tr = tr1 ++ Kill p :: tr2 /\ frun (finit f0) tr1 = Some s1 /\ f_phase s1 p = Opened a).
Proof.
  intros f0 tr s F0. revert s. induction tr as [|e tr IH] using rev_ind; intros s H T.
  - injection H as <-. simpl in T. congruence.
  - rewrite frun_app in H. destruct (frun (finit f0) tr) as [s1|] eqn:E; [|discriminate].
    assert (Old : f_file s1 = Torn -> (forall p, ~ exists a, f_phase s1 p = Opened a) ->
       exists tr1 p tr2 s0 a, tr ++ [e] = tr1 ++ Kill p :: tr2 /\ frun (finit f0) tr1 = Some s0 /\ f_phase s0 p = Opened a).
    { intros T1 No. destruct (IH s1 eq_refl T1) as [[p [a K]]|[tr1 [p [tr2 [s0 [a [-> [R K]]]]]]]].
      - exfalso. apply (No p). eauto.
      - exists tr1, p, (tr2 ++ [e]), s0, a. rewrite <- app_assoc. auto. }
    assert (Hist : f_file s1 = Torn ->
       (exists p a, f_phase s1 p = Opened a) \/
       exists tr1 p tr2 s0 a, tr ++ [e] = tr1 ++ Kill p :: tr2 /\ frun (finit f0) tr1 = Some s0 /\ f_phase s0 p = Opened a).
    { intros T1. destruct (IH s1 eq_refl T1) as [K|[tr1 [p [tr2 [s0 [a [-> [R K]]]]]]]]; auto.
      right. exists tr1, p, (tr2 ++ [e]), s0, a. rewrite <- app_assoc. auto. }
    (* a process with the file open stays that way unless it moves *)
    assert (Keep : forall p x l, f_file s1 = Torn -> (forall a, f_phase s1 p <> Opened a) ->
       s = mk_fstate A (f_file s1) l (set_phase A p x (f_phase s1)) ->
       (exists q a, f_phase s q = Opened a) \/
       exists tr1 p tr2 s0 a, tr ++ [e] = tr1 ++ Kill p :: tr2 /\ frun (finit f0) tr1 = Some s0 /\ f_phase s0 p = Opened a).
    { intros p x l T1 Np ->. destruct (Hist T1) as [[q [a K]]|K]; auto. left. exists q, a. simpl.
      rewrite set_phase_other; auto. intros ->. exact (Np a K). }
    destruct e as [p|p|p|p|p|p|p|]; cbn [Status_Model.fstep] in H.
    + destruct (f_phase s1 p) eqn:F; try discriminate. destruct (f_lock s1); try discriminate. injection H as <-.
      eapply Keep; eauto. intros a. rewrite F. discriminate.
    + destruct (f_phase s1 p) eqn:F; try discriminate. injection H as <-.
      eapply Keep; eauto. intros a. rewrite F. discriminate.
    + destruct (f_phase s1 p) eqn:F; try discriminate. cbn zeta in H.
      match type of H with (match ?c with _ => _ end) = _ => destruct c end; injection H as <-;
        (eapply Keep; eauto; intros b; rewrite F; discriminate).
    + destruct (f_phase s1 p) eqn:F; try discriminate. injection H as <-. left. exists p, a. simpl. apply set_phase_same.
    + destruct (f_phase s1 p) eqn:F; try discriminate. injection H as <-. discriminate T.
    + destruct (f_phase s1 p) eqn:F; try discriminate. injection H as <-.
      eapply Keep; eauto. intros b. rewrite F. discriminate.
    + assert (K : s = mk_fstate A (f_file s1) (drop_lock p (f_lock s1)) (set_phase A p Crashed (f_phase s1))).
      { destruct (f_phase s1 p); congruence. }
      destruct (f_phase s1 p) eqn:F; try (eapply Keep; [subst s; exact T|intros b; rewrite F; discriminate|exact K]).
      right. exists tr, p, [], s1, a. auto.
    + injection H as <-. discriminate T.
Qed.
End Serial.

(* the updates used in the examples: process p registers lab p *)
Definition reg_upd (p : nat) (l : list nat) : option (list nat) := Some (l ++ [p]).

Example serialized_case :
  let tr := [Acquire 2; Timeout 3; Read 2; Open 2; Write 2; Release 2; Acquire 1; Read 1; Kill 1; Acquire 4; Read 4; Open 4; Write 4] in
  match frun _ [] reg_upd (finit _ (Good [7])) tr with
  | Some s => f_file s = Good [7; 2; 4]
  | None => False
  end.
Proof. reflexivity. Qed.

(* a process killed while writing leaves an unreadable file, and no later update succeeds; *)
Theorem crash_destroys_status : exists tr s, frun _ [] reg_upd (finit _ (Good [7])) tr = Some s /\
  f_file s = Torn /\ f_lock s = None /\ f_phase s 2 = Failed /\ (forall p a, f_phase s p <> Opened a).
Proof.
  exists [Acquire 1; Read 1; Open 1; Kill 1; Acquire 2; Read 2]. eexists. split; [reflexivity|].
  repeat split. intros p a. simpl. unfold set_phase. repeat destruct (Nat.eqb p _); discriminate.
Qed.

(* ... and removing the file without the lock (netlab status --reset) while an update is in
   progress is undone by that update. *)
Theorem reset_lost_refuted : exists tr1 tr2 s, frun _ [] reg_upd (finit _ (Good [7])) (tr1 ++ Reset :: tr2) = Some s /\
  acquired tr2 = [] /\ f_file s = Good [7; 1].
Proof.
  exists [Acquire 1; Read 1], [Open 1; Write 1; Release 1]. eexists. split; [reflexivity|]. split; reflexivity.
Qed.

Lemma app_nil_r_string : forall s, (s ++ "")%string = s.
Proof. induction s as [|c s IH]; simpl; congruence. Qed.

(* ---------- C62: the log ---------- *)

Lemma update_dget_other : forall cwd id now old u prov reg id', id' <> id ->
  dget id' (lab_status_update cwd id now old u prov reg) = dget id' reg.
Proof. intros. unfold lab_status_update. cbn zeta. apply dget_dset_other. auto. Qed.

(* C62: a status update changes one lab only, never moves it to another directory, adds at most
   one line to its log and removes none; *)
Theorem status_update_effect : forall cwd id now old u prov reg,
  (forall id', id' <> id -> dget id' (lab_status_update cwd id now old u prov reg) = dget id' reg) /\
  exists e', dget id (lab_status_update cwd id now old u prov reg) = Some e' /\
    match dget id reg with
    | Some e => e_dir e' = e_dir e /\ (e_log e' = e_log e \/ exists line, e_log e' = e_log e ++ [line])
    | None => e_dir e' = cwd
    end.
Proof.
  intros cwd id now old u prov reg. split; [intros; apply update_dget_other; auto|].
  unfold lab_status_update. cbn zeta. rewrite dget_dset_same. eexists. split; [reflexivity|].
  assert (L : forall line log, log_append now old line log = log \/ exists x, log_append now old line log = log ++ [x]).
  { intros line log. unfold log_append. destruct (_ || _); eauto. }
  destruct (dget id reg) as [e|].
  - destruct u as [[[x|] [y|] r]|]; destruct prov; simpl; split; auto.
  - destruct u as [[[x|] [y|] r]|]; destruct prov; simpl; auto.
Qed.

(* ... and the line is there afterwards: it was added, or the last line already said so. *)
Theorem status_change_logged : forall cwd id now old text reg,
  exists e line, dget id (lab_status_change cwd id now old text reg) = Some e /\ e_status e = Some text /\
    last (e_log e) ""%string = line /\ occurs (": " ++ text) line.
Proof.
  intros. unfold lab_status_change, lab_status_update. cbn zeta. rewrite dget_dset_same.
  eexists. eexists. split; [reflexivity|]. cbn [e_status e_log e_dir e_providers u_status u_reset].
  split; auto. split; auto.
  match goal with |- context [log_append _ _ _ ?l] => generalize l end. intros log. unfold log_append.
  destruct log as [|x log]; cbn [orb].
  - simpl. exists now, ""%string. rewrite app_nil_r_string. reflexivity.
  - destruct (contains (": " ++ text)%string (last (x :: log) ""%string)) eqn:C; cbn [negb orb].
    + destruct old; [|apply contains_spec; auto]. rewrite last_last. exists now, ""%string. rewrite app_nil_r_string. auto.
    + rewrite last_last. exists now, ""%string. rewrite app_nil_r_string. auto.
Qed.

Example status_log_case :
  let r1 := lab_status_change "/a" "x" "t1" true "starting" [] in
  let r2 := lab_status_change "/b" "x" "t2" false "starting" r1 in
  let r3 := lab_status_change "/b" "x" "t3" false "started" r2 in
  dget "x" r3 = Some (mk_entry "/a" [] (Some "started") ["t1: starting"; "t3: started"])%string.
Proof. reflexivity. Qed.

(* A lab start without conflict empties the list of providers; after any sequence of provider starts
   and status changes the list contains the started providers in the order of their start. *)
Inductive lab_op := StartProvider (now : string) (old : bool) (p : string) | ChangeStatus (now : string) (old : bool) (text : string).

Definition apply_op (cwd id : string) (reg : dict entry) (o : lab_op) : dict entry :=
  match o with
  | StartProvider now old p => status_start_provider cwd id now old p reg
  | ChangeStatus now old text => lab_status_change cwd id now old text reg
  end.

Definition started (o : lab_op) : list string := match o with StartProvider _ _ p => [p] | _ => [] end.

Definition providers_of (id : string) (reg : dict entry) : option (list string) := option_map e_providers (dget id reg).

Theorem providers_recorded : forall cwd id now old reg reg' ops,
  lab_status_start cwd id now old reg = (reg', None) ->
  providers_of id (fold_left (apply_op cwd id) ops reg') = Some (flat_map started ops).
Proof.
  intros cwd id now old reg reg' ops H.
  assert (H0 : providers_of id reg' = Some []).
  { unfold lab_status_start in H. destruct (dget id reg) as [e|] eqn:G.
    - destruct (negb (String.eqb (e_dir e) cwd)); [discriminate|]. injection H as <-.
      unfold providers_of, lab_status_update. cbn zeta. rewrite dget_dset_same, G. reflexivity.
    - injection H as <-. unfold providers_of, lab_status_update. cbn zeta. rewrite dget_dset_same, G. reflexivity. }
  clear H. change (flat_map started ops) with ([] ++ flat_map started ops). revert reg' H0.
  generalize (@nil string). induction ops as [|o ops IH]; intros l reg' H0; cbn [fold_left flat_map].
  - rewrite app_nil_r. auto.
  - rewrite app_assoc. apply IH.
    unfold providers_of in *. destruct (dget id reg') as [e|] eqn:G; [|discriminate]. cbn [option_map] in H0.
    assert (e_providers e = l) by congruence.
    destruct o as [n b p|n b t]; cbn [apply_op started]; unfold status_start_provider, lab_status_change, lab_status_update; cbn zeta;
      rewrite dget_dset_same, G; cbn [option_map e_providers u_reset u_status]; rewrite ?app_nil_r; congruence.
Qed.

Example providers_case :
  let (r1, c) := lab_status_start "/a" "x" "t1" true [("x", mk_entry "/a" ["old"] None [])]%string in
  c = None /\ providers_of "x" (fold_left (apply_op "/a" "x") [StartProvider "t2" true "libvirt"; ChangeStatus "t3" true "busy"; StartProvider "t4" true "clab"]%string r1)
    = Some ["libvirt"; "clab"]%string.
Proof. split; reflexivity. Qed.

(* ---------- C30 and C32: netlab up and netlab down ---------- *)

Section Labs.
Variable P : nat -> proc.

Notation run := (run P).
Notation step := (step P).
Notation init := (init P).

Definition dir_of (id : string) (reg : dict entry) : option string :=
  match dget id reg with Some e => Some (e_dir e) | None => None end.

Lemma run_app : forall tr s e, run s (tr ++ [e]) = match run s tr with Some s' => step s' e | None => None end.
Proof.
  induction tr as [|x tr IH]; intros s e.
  - simpl. destruct (step s e); auto.
  - cbn [app Status_Model.run]. destruct (step s x); auto.
Qed.

Lemma dir_of_update : forall cwd id now old u prov reg id',
  dir_of id' (lab_status_update cwd id now old u prov reg) =
  if String.eqb id' id then match dir_of id reg with Some d => Some d | None => Some cwd end else dir_of id' reg.
Proof.
  intros. unfold dir_of. destruct (String.eqb_spec id' id) as [->|N].
  - destruct (status_update_effect cwd id now old u prov reg) as [_ [e' [-> H]]].
    destruct (dget id reg); [destruct H as [-> _]|rewrite H]; auto.
  - rewrite update_dget_other by auto. auto.
Qed.

Lemma dir_of_start : forall cwd id now old reg reg' c, lab_status_start cwd id now old reg = (reg', c) ->
  (forall id', dir_of id' reg' = if String.eqb id' id then match dir_of id reg with Some d => Some d | None => Some cwd end else dir_of id' reg) /\
  match c with Some d => dir_of id reg = Some d /\ d <> cwd | None => dir_of id reg' = Some cwd end.
Proof.
  intros cwd id now old reg reg' c H. unfold lab_status_start in H. destruct (dget id reg) as [e|] eqn:G.
  - destruct (String.eqb_spec (e_dir e) cwd) as [E|E]; cbn [negb] in H; injection H as <- <-.
    + split; [intros; apply dir_of_update|]. rewrite dir_of_update, String.eqb_refl. unfold dir_of. rewrite G. congruence.
    + split; [intros; apply dir_of_update|]. unfold dir_of. rewrite G. auto.
  - injection H as <- <-. split; [intros; apply dir_of_update|]. rewrite dir_of_update, String.eqb_refl. unfold dir_of. rewrite G. auto.
Qed.

Lemma other_dir_spec : forall d id reg, other_dir d id reg = true <-> exists d', dir_of id reg = Some d' /\ d' <> d.
Proof.
  intros d id reg. unfold other_dir, dir_of. destruct (dget id reg) as [e|].
  - destruct (String.eqb_spec (e_dir e) d); simpl; split; try discriminate; try congruence; eauto.
    intros [d' [E N]]. congruence.
  - split; [discriminate|]. intros [d' [E _]]. discriminate.
Qed.

Lemma set_pc_same : forall p x f, set_pc p x f p = x.
Proof. intros. unfold set_pc. rewrite Nat.eqb_refl. auto. Qed.
Lemma set_pc_other : forall p q x f, q <> p -> set_pc p x f q = f q.
Proof. intros. unfold set_pc. destruct (Nat.eqb_spec q p); congruence. Qed.

(* what a step does to the registered directories *)
Inductive reg_effect (s s' : state) : Prop :=
| RE_same : (forall id, dir_of id (s_reg s') = dir_of id (s_reg s)) -> reg_effect s s'
| RE_update : forall id d, (forall id', dir_of id' (s_reg s') =
      if String.eqb id' id then match dir_of id (s_reg s) with Some x => Some x | None => Some d end else dir_of id' (s_reg s)) -> reg_effect s s'.

Definition removes (s : state) (e : event) (id : string) : Prop :=
  exists p c now old f, e = Step p c now old /\ p_kind (P p) = Down f /\ s_pc s p = DStopped id false.

Lemma step_reg : forall s e s', step s e = Some s' ->
  reg_effect s s' \/ exists id, removes s e id /\ s_reg s' = dpop id (s_reg s).
Proof.
  intros s e s' H. destruct e as [p c now old|p]; cbn [Status_Model.step] in H; [|injection H as <-; left; apply RE_same; auto].
  destruct (p_kind (P p)) as [snap id0|force] eqn:K; [unfold up_step in H|unfold down_step in H];
    destruct (s_pc s p) eqn:E; try discriminate.
  - injection H as <-. left. apply RE_same. auto.
  - destruct snap; [injection H as <-|destruct (locked _ s); injection H as <-]; left; apply RE_same; auto.
  - injection H as <-. left. apply RE_same. auto.
  - destruct c; try (injection H as <-; left; apply RE_same; auto; fail);
    (destruct (lab_status_start (p_dir (P p)) id now old (s_reg s)) as [r cf] eqn:L; injection H as <-;
     left; apply (RE_update _ _ id (p_dir (P p))); apply (dir_of_start _ _ _ _ _ _ _ L)).
  - injection H as <-. left. apply RE_same. auto.
  - injection H as <-. left. apply (RE_update _ _ id (p_dir (P p))). intros. apply dir_of_update.
  - injection H as <-. left. apply RE_same. auto.
  - destruct c; injection H as <-; left; apply (RE_update _ _ id (p_dir (P p))); intros; apply dir_of_update.
  - destruct (dget _ (s_snap s)); [destruct c|]; injection H as <-; left; apply RE_same; auto.
  - injection H as <-. left. apply (RE_update _ _ id (p_dir (P p))). intros. apply dir_of_update.
  - destruct c; injection H as <-; left; try (apply RE_same; auto; fail).
    apply (RE_update _ _ id (p_dir (P p))). intros. apply dir_of_update.
  - injection H as <-. destruct mismatch; [left; apply RE_same; auto|]. right. exists id. split; auto.
    exists p, c, now, old, force. auto.
  - injection H as <-. left. apply RE_same. auto.
Qed.

(* C30: a registered lab stays registered in the same directory until netlab down removes it; *)
Theorem registration_stable : forall s e s' id d, step s e = Some s' -> dir_of id (s_reg s) = Some d ->
  dir_of id (s_reg s') = Some d \/ (dir_of id (s_reg s') = None /\ removes s e id).
Proof.
  intros s e s' id d H R. destruct (step_reg _ _ _ H) as [[E|id' d' E]|[id' [Rm E]]].
  - left. rewrite E. auto.
  - left. rewrite E. destruct (String.eqb_spec id id') as [<-|]; [rewrite R; auto|auto].
  - unfold dir_of in *. rewrite E. destruct (string_dec id id') as [<-|N].
    + right. rewrite dget_dpop_same. auto.
    + left. rewrite dget_dpop_other by auto. auto.
Qed.

Definition starting (x : pc) : option string :=
  match x with URegistered id | ULocked id | UStarting id | URunning id => Some id | _ => None end.

(* ... an attempt to start a lab that is registered in another directory is aborted; *)
Theorem conflict_aborts : forall p snap id0 s c now old s' id d, p_kind (P p) = Up snap id0 ->
  s_pc s p = UTopo id \/ s_pc s p = UInstance id ->
  step s (Step p c now old) = Some s' -> dir_of id (s_reg s) = Some d -> d <> p_dir (P p) ->
  s_pc s' p = Aborted /\ s_run s' = s_run s /\ s_lock s' = s_lock s.
Proof.
  intros p snap id0 s c now old s' id d K E H R N. cbn [Status_Model.step] in H. rewrite K in H. unfold up_step in H.
  assert (O : other_dir (p_dir (P p)) id (s_reg s) = true) by (apply other_dir_spec; eauto).
  destruct E as [E|E]; rewrite E in H.
  - rewrite O in H. injection H as <-. simpl. rewrite set_pc_same. auto.
  - destruct c; try (injection H as <-; simpl; rewrite set_pc_same; auto; fail);
    (destruct (lab_status_start (p_dir (P p)) id now old (s_reg s)) as [r cf] eqn:L; injection H as <-; simpl;
     rewrite set_pc_same; apply dir_of_start in L; destruct L as [L1 L2]; destruct cf; auto;
     rewrite L1, String.eqb_refl, R in L2; congruence).
Qed.

Definition has_kind (x : pc) (up : bool) : bool :=
  match x with
  | UStart | UChecked | UTopo _ | UInstance _ | URegistered _ | ULocked _ | UStarting _ | URunning _ => up
  | DStart | DChecked _ _ | DRequested _ _ | DStopped _ _ | DRemoved _ => negb up
  | _ => true
  end.

(* ... a process that gets to starting the workload was registered with its own directory at
   some point; *)
Theorem started_was_registered : forall tr s p id, run init tr = Some s -> starting (s_pc s p) = Some id ->
  exists tr1 tr2 s1, tr = tr1 ++ tr2 /\ run init tr1 = Some s1 /\ dir_of id (s_reg s1) = Some (p_dir (P p)).
Proof.
  induction tr as [|e tr IH] using rev_ind; intros s q id H St.
  - injection H as <-. simpl in St. unfold start_pc in St. destruct (p_kind (P q)); discriminate.
  - pose proof H as H0. rewrite run_app in H. destruct (run init tr) as [s1|] eqn:R; [|discriminate].
    assert (Old : starting (s_pc s1 q) = Some id -> exists tr1 tr2 s1, tr ++ [e] = tr1 ++ tr2 /\ run init tr1 = Some s1 /\ dir_of id (s_reg s1) = Some (p_dir (P q))).
    { intros X. destruct (IH s1 q id eq_refl X) as [t1 [t2 [s2 [-> [R2 D]]]]]. exists t1, (t2 ++ [e]), s2. rewrite app_assoc. auto. }
    assert (Q : forall p x r l sn rn, s = mk_state r l sn rn (set_pc p x (s_pc s1)) ->
        (starting x = Some id -> starting (s_pc s1 p) = Some id) ->
        exists tr1 tr2 s1, tr ++ [e] = tr1 ++ tr2 /\ run init tr1 = Some s1 /\ dir_of id (s_reg s1) = Some (p_dir (P q))).
    { intros p x r l sn rn -> X. apply Old. simpl in St. destruct (Nat.eq_dec q p) as [->|N].
      - rewrite set_pc_same in St. auto.
      - rewrite set_pc_other in St by auto. auto. }
    destruct e as [p c now old|p]; cbn [Status_Model.step] in H;
      [|injection H as <-; eapply (Q p Dead); [reflexivity|discriminate]].
    destruct (p_kind (P p)) as [snap id0|force] eqn:K; [unfold up_step in H|unfold down_step in H];
      destruct (s_pc s1 p) eqn:E; try discriminate;
      try (injection H as <-; eapply (Q p); [reflexivity|rewrite E; simpl; congruence]; fail).
    + injection H as <-. eapply (Q p); [reflexivity|]. destruct (_ && _); discriminate.
    + destruct snap; [|destruct (locked _ s1)]; injection H as <-; eapply (Q p); try reflexivity; try discriminate.
      destruct (dget _ _); discriminate.
    + injection H as <-. eapply (Q p); [reflexivity|]. destruct (other_dir _ _ _); discriminate.
    + destruct c; try (injection H as <-; eapply (Q p); [reflexivity|discriminate]);
      (destruct (lab_status_start (p_dir (P p)) id1 now old (s_reg s1)) as [r cf] eqn:L; injection H as <-;
       apply dir_of_start in L; destruct L as [_ L];
       destruct (Nat.eq_dec q p) as [->|N];
       [eexists; exists []; eexists; rewrite app_nil_r; split; [reflexivity|]; split; [exact H0|];
        simpl in St |- *; rewrite set_pc_same in St; destruct cf; [discriminate|]; simpl in St; injection St as <-; auto
       |apply Old; simpl in St; rewrite set_pc_other in St by auto; auto]).
    + injection H as <-. eapply (Q p); [reflexivity|]. rewrite E. destruct c; simpl; congruence.
    + destruct c; injection H as <-; (eapply (Q p); [reflexivity|rewrite E; simpl; congruence]).
    + destruct (dget _ (s_snap s1)); [destruct c|]; injection H as <-; (eapply (Q p); [reflexivity|try discriminate]).
      destruct (_ && _); discriminate.
    + destruct c; injection H as <-; (eapply (Q p); [reflexivity|try discriminate]).
      destruct (_ =? _); discriminate.
    + injection H as <-. destruct mismatch; (eapply (Q p); [reflexivity|discriminate]).
Qed.

Definition pc_id (x : pc) : option string :=
  match x with
  | UTopo id | UInstance id | URegistered id | ULocked id | UStarting id | URunning id
  | DChecked id _ | DRequested id _ | DStopped id _ | DRemoved id => Some id
  | _ => None
  end.

Definition is_up (p : nat) : bool := match p_kind (P p) with Up _ _ => true | _ => false end.

(* while netlab down works on a lab, no other process works on a lab with the same id *)
Definition lab_isolated (tr : list event) : Prop :=
  forall tr1 p c now old tr2 s, tr = tr1 ++ Step p c now old :: tr2 -> run init tr1 = Some s ->
    forall q id, q <> p -> pc_id (s_pc s p) = Some id -> pc_id (s_pc s q) = Some id ->
      is_up p = true /\ is_up q = true.

(* processes in the same directory run one after another *)
Definition dir_isolated (tr : list event) : Prop :=
  forall tr1 p c now old tr2 s, tr = tr1 ++ Step p c now old :: tr2 -> run init tr1 = Some s ->
    forall q, q <> p -> p_dir (P q) = p_dir (P p) ->
      s_pc s q = start_pc P q \/ s_pc s q = Done \/ s_pc s q = Aborted \/ s_pc s q = Dead.

(* netlab down is not told to continue after failures *)
Definition not_forced : Prop := forall p f, p_kind (P p) = Down f -> f = 0.

Definition owns (d id : string) (reg : dict entry) : Prop := dir_of id reg = Some d.

Definition pc_ok (s : state) (p : nat) : Prop :=
  let d := p_dir (P p) in
  match s_pc s p with
  | URegistered id | ULocked id | UStarting id | URunning id => owns d id (s_reg s)
  | DChecked id false => dir_of id (s_reg s) = None \/ owns d id (s_reg s)
  | DRequested id false => owns d id (s_reg s)
  | DStopped id m => (m = false -> owns d id (s_reg s)) /\ ~ In (id, d) (s_run s)
  | _ => True
  end.

Record linv (s : state) : Prop := {
  li_run : forall id d, In (id, d) (s_run s) -> owns d id (s_reg s);
  li_pc : forall p, pc_ok s p;
  li_kind : forall p, has_kind (s_pc s p) (is_up p) = true
}.

Lemma stop_run_In : forall id d l x, In x (stop_run id d l) <-> In x l /\ x <> (id, d).
Proof.
  intros id d l [a b]. unfold stop_run. rewrite filter_In. cbn [fst snd].
  destruct (String.eqb_spec a id) as [->|N1]; destruct (String.eqb_spec b d) as [->|N2]; simpl; split; intros [H1 H2]; split; auto; congruence.
Qed.

Lemma linv_init : linv init.
Proof.
  constructor.
  - intros id d [].
  - intros p. unfold pc_ok. simpl. unfold start_pc. destruct (p_kind (P p)); auto.
  - intros p. simpl. unfold start_pc, is_up. destruct (p_kind (P p)); auto.
Qed.

Lemma has_kind_step : forall s e s', (forall p, has_kind (s_pc s p) (is_up p) = true) -> step s e = Some s' ->
  forall p, has_kind (s_pc s' p) (is_up p) = true.
Proof.
  intros s e s' I H q. specialize (I q).
  assert (Q : forall p x r l sn rn, s' = mk_state r l sn rn (set_pc p x (s_pc s)) -> has_kind x (is_up p) = true -> has_kind (s_pc s' q) (is_up q) = true).
  { intros p x r l sn rn -> X. simpl. destruct (Nat.eq_dec q p) as [->|N]; [rewrite set_pc_same; auto|rewrite set_pc_other; auto]. }
  destruct e as [p c now old|p]; cbn [Status_Model.step] in H; [|injection H as <-; eapply Q; reflexivity].
  destruct (p_kind (P p)) as [snap id0|force] eqn:K; [unfold up_step in H|unfold down_step in H];
    assert (U : is_up p = match p_kind (P p) with Up _ _ => true | _ => false end) by reflexivity; rewrite K in U;
    destruct (s_pc s p) eqn:E; try discriminate;
    repeat match type of H with
           | Some _ = Some _ => fail 1
           | (let '(_, _) := ?c in _) = _ => destruct c
           | (if ?c then _ else _) = _ => destruct c
           | (match ?c with _ => _ end) = _ => destruct c
           end; injection H as <-; try match goal with |- context [if ?m then s else _] => destruct m end;
    (eapply Q; [reflexivity|rewrite U]);
    repeat match goal with |- has_kind (if ?c then _ else _) _ = true => destruct c
                         | |- has_kind (match ?c with _ => _ end) _ = true => destruct c end; reflexivity.
Qed.

(* registered directories do not change *)
Lemma linv_same : forall s s' p x,
  linv s -> (forall id, dir_of id (s_reg s') = dir_of id (s_reg s)) ->
  (forall id d, In (id, d) (s_run s') -> owns d id (s_reg s')) ->
  (forall id q, q <> p -> ~ In (id, p_dir (P q)) (s_run s) -> (exists m, s_pc s q = DStopped id m) -> ~ In (id, p_dir (P q)) (s_run s')) ->
  s_pc s' = set_pc p x (s_pc s) -> pc_ok s' p -> forall q, pc_ok s' q.
Proof.
  intros s s' p x [I1 I2 _] R Rn Rs Pc Ok q. destruct (Nat.eq_dec q p) as [->|N]; auto.
  specialize (I2 q). unfold pc_ok in *. cbn zeta in *. rewrite Pc, set_pc_other by auto.
  destruct (s_pc s q) as [| | | | | | | | | | |id m| | | |] eqn:E; auto; unfold owns in *; rewrite ?R; auto.
  destruct I2 as [I2 I3]. split; [auto|]. apply Rs; eauto.
Qed.

Lemma linv_step : forall tr s e s', not_forced -> lab_isolated (tr ++ [e]) -> run init tr = Some s ->
  linv s -> step s e = Some s' -> linv s'.
Proof.
  intros tr s e s' NF Iso R I H.
  assert (Kd := has_kind_step s e s' (li_kind _ I) H).
  destruct I as [I1 I2 I3].
  destruct e as [p c now old|p].
  2: { cbn [Status_Model.step] in H. injection H as <-. constructor; [exact I1| |exact Kd].
       intros q. specialize (I2 q). unfold pc_ok in *. cbn zeta in *. simpl. destruct (Nat.eq_dec q p) as [->|N];
         [rewrite set_pc_same; auto|rewrite set_pc_other; auto]. }
  specialize (Iso tr p c now old [] s eq_refl R).
  set (d := p_dir (P p)) in *.
  (* only the phase of p changes *)
  assert (Quiet : forall x l sn, s' = mk_state (s_reg s) l sn (s_run s) (set_pc p x (s_pc s)) -> pc_ok s' p -> linv s').
  { intros x l sn E Ok. constructor; auto.
    - subst s'. exact I1.
    - eapply (linv_same s s' p x); auto; subst s'; simpl; auto. constructor; auto. }
  (* the status of lab id is updated *)
  assert (Upd : forall x id reg, s' = goto (with_reg s reg) p x -> pc_id (s_pc s p) = Some id ->
     (forall id', dir_of id' reg = if String.eqb id' id then match dir_of id (s_reg s) with Some x => Some x | None => Some d end else dir_of id' (s_reg s)) ->
     pc_ok s' p -> linv s').
  { intros x id reg E Pi D Ok.
    assert (Mono : forall d' id', owns d' id' (s_reg s) -> owns d' id' reg).
    { intros d' id' O. unfold owns in *. rewrite D. destruct (String.eqb_spec id' id) as [->|]; auto. rewrite O. auto. }
    constructor; auto.
    - subst s'. simpl. intros id' d' K. apply Mono. auto.
    - intros q. destruct (Nat.eq_dec q p) as [->|N]; auto. specialize (I2 q). specialize (I3 q).
      unfold pc_ok in *. cbn zeta in *. subst s'. simpl. rewrite set_pc_other by auto.
      specialize (Iso q id N Pi).
      destruct (s_pc s q) as [| |i|i|i|i|i|i| |i m|i m|i m|i| | |] eqn:Eq; auto; try (apply Mono; auto; fail).
      + destruct m; auto. destruct (string_dec id i) as [<-|N1].
        * destruct (Iso eq_refl) as [_ U]. rewrite U in I3. discriminate.
        * destruct I2 as [I2|I2]; auto. left. rewrite D. destruct (String.eqb_spec i id); congruence.
      + destruct m; auto.
      + destruct I2 as [I2 I4]. split; auto. }
  cbn [Status_Model.step] in H. pose proof (I2 p) as Okp. unfold pc_ok in Okp. cbn zeta in Okp. fold d in Okp.
  destruct (p_kind (P p)) as [snap id0|force] eqn:K; [unfold up_step in H|unfold down_step in H]; fold d in H;
    destruct (s_pc s p) as [| |id|id|id|id|id|id| |id mismatch|id mismatch|id mismatch|id| | |] eqn:E; try discriminate.
  - injection H as <-. eapply Quiet; [reflexivity|]. unfold pc_ok. simpl. rewrite set_pc_same. destruct (_ && _); auto.
  - destruct snap; [|destruct (locked d s)]; injection H as <-; (eapply Quiet; [reflexivity|]);
      unfold pc_ok; simpl; rewrite set_pc_same; auto. destruct (dget d (s_snap s)); auto.
  - injection H as <-. eapply Quiet; [reflexivity|]. unfold pc_ok. simpl. rewrite set_pc_same. destruct (other_dir _ _ _); auto.
  - assert (G : forall r cf, lab_status_start d id now old (s_reg s) = (r, cf) ->
        s' = goto (with_reg s r) p (match cf with Some _ => Aborted | None => URegistered id end) -> linv s').
    { intros r cf L ->. apply dir_of_start in L. destruct L as [L1 L2].
      eapply (Upd _ id r); [reflexivity|reflexivity|exact L1|]. unfold pc_ok. simpl. rewrite set_pc_same. destruct cf; auto. }
    destruct c; try (injection H as <-; eapply Quiet; [reflexivity|]; unfold pc_ok; simpl; rewrite set_pc_same; auto; fail);
      (destruct (lab_status_start d id now old (s_reg s)) as [r cf] eqn:L; injection H as <-; eapply G; [reflexivity|reflexivity]).
  - injection H as <-. eapply Quiet; [reflexivity|]. unfold pc_ok. simpl. rewrite set_pc_same. auto.
  - injection H as <-. eapply (Upd _ id); [reflexivity|reflexivity|intros; apply dir_of_update|].
    unfold pc_ok. simpl. rewrite set_pc_same. unfold owns in *. unfold status_start_provider. rewrite dir_of_update, String.eqb_refl.
    fold d. rewrite Okp. auto.
  - (* the workload is started *)
    injection H as <-. constructor; auto.
    + simpl. intros id' d' [X|X]; [injection X as <- <-; auto|auto].
    + intros q. destruct (Nat.eq_dec q p) as [->|N].
      * unfold pc_ok. simpl. rewrite set_pc_same. destruct c; auto.
      * specialize (I2 q). specialize (I3 q). specialize (Iso q id N eq_refl). unfold pc_ok in *. cbn zeta in *. simpl.
        rewrite set_pc_other by auto. destruct (s_pc s q) as [| |i|i|i|i|i|i| |i m|i m|i m|i| | |] eqn:Eq; auto. destruct I2 as [I2 I4]. split; auto.
        intros [X|X]; auto. injection X as X1 X2. subst i. destruct (Iso eq_refl) as [_ U]. rewrite U in I3. discriminate.
  - destruct c; injection H as <-; (eapply (Upd _ id); [reflexivity|reflexivity|intros; apply dir_of_update|]);
      unfold pc_ok; simpl; rewrite set_pc_same; auto.
    unfold owns in *. unfold status_start_provider. rewrite dir_of_update, String.eqb_refl. fold d. rewrite Okp. auto.
  - (* down *)
    assert (Ok : forall id, pc_ok (goto s p (DChecked id (other_dir d id (s_reg s)))) p).
    { intros id. unfold pc_ok. simpl. rewrite set_pc_same. destruct (other_dir d id (s_reg s)) eqn:O; auto.
      fold d. unfold owns. destruct (dir_of id (s_reg s)) as [d'|] eqn:D; auto. right.
      destruct (string_dec d' d) as [->|N]; auto. assert (T : other_dir d id (s_reg s) = true) by (apply other_dir_spec; eauto). congruence. }
    destruct (dget d (s_snap s)) as [id|].
    + destruct c; injection H as <-; try (eapply Quiet; [reflexivity|apply Ok]).
      destruct (other_dir d id (s_reg s) && (force <? 2)) eqn:O; [|eapply Quiet; [reflexivity|apply Ok]].
      eapply Quiet; [reflexivity|]. unfold pc_ok. simpl. rewrite set_pc_same. auto.
    + injection H as <-. eapply Quiet; [reflexivity|]. unfold pc_ok. simpl. rewrite set_pc_same. auto.
  - injection H as <-. eapply (Upd _ id); [reflexivity|reflexivity|intros; apply dir_of_update|].
    unfold pc_ok. simpl. rewrite set_pc_same. destruct mismatch; auto. fold d. unfold owns in *. unfold lab_status_change.
    rewrite dir_of_update, String.eqb_refl. destruct Okp as [-> | ->]; auto.
  - destruct c.
    + injection H as <-. constructor; auto.
      * simpl. intros id' d' X. apply stop_run_In in X. apply I1. tauto.
      * eapply (linv_same s _ p); try reflexivity; [constructor; auto|..].
        -- simpl. intros id' d' X. apply stop_run_In in X. apply I1. tauto.
        -- simpl. intros id' q N1 N2 _ X. apply stop_run_In in X. tauto.
        -- unfold pc_ok. simpl. rewrite set_pc_same. fold d. split.
           ++ intros ->. auto.
           ++ intros X. apply stop_run_In in X. tauto.
    + injection H as <-. eapply (Upd _ id); [reflexivity|reflexivity|intros; apply dir_of_update|].
      unfold pc_ok. simpl. rewrite set_pc_same. destruct mismatch; auto. fold d. unfold owns in *. unfold lab_status_change.
      rewrite dir_of_update, String.eqb_refl. rewrite Okp. auto.
    + rewrite (NF p force K) in H. injection H as <-. eapply Quiet; [reflexivity|]. unfold pc_ok. simpl. rewrite set_pc_same. auto.
  - injection H as <-. destruct mismatch; [eapply Quiet; [reflexivity|]; unfold pc_ok; simpl; rewrite set_pc_same; auto|].
    destruct Okp as [O Nr]. specialize (O eq_refl). constructor; auto.
    + simpl. intros id' d' X. pose proof (I1 _ _ X) as Ow. unfold owns, dir_of, remove_lab_status in *.
      destruct (string_dec id' id) as [->|N]; [|rewrite dget_dpop_other; auto].
      exfalso. assert (d' = d) by congruence. subst d'. contradiction.
    + intros q. destruct (Nat.eq_dec q p) as [->|N]; [unfold pc_ok; simpl; rewrite set_pc_same; auto|].
      specialize (I2 q). specialize (I3 q). specialize (Iso q id N eq_refl).
      assert (Npc : pc_id (s_pc s q) <> Some id).
      { intros X. destruct (Iso X) as [U _]. unfold is_up in U. rewrite K in U. discriminate. }
      assert (Keep : forall id', id' <> id -> dir_of id' (remove_lab_status id (s_reg s)) = dir_of id' (s_reg s)).
      { intros id' N'. unfold dir_of, remove_lab_status. rewrite dget_dpop_other; auto. }
      unfold pc_ok in *. cbn zeta in *. simpl. rewrite set_pc_other by auto. destruct (s_pc s q) as [| |i|i|i|i|i|i| |i m|i m|i m|i| | |]; auto; simpl in Npc;
        unfold owns in *; try (destruct m; auto); rewrite ?Keep by congruence; auto.
  - injection H as <-. eapply Quiet; [reflexivity|]. unfold pc_ok. simpl. rewrite set_pc_same. auto.
Qed.

Lemma prefix_isolated : forall tr e, lab_isolated (tr ++ [e]) -> lab_isolated tr.
Proof.
  intros tr e I tr1 p c now old tr2 s E R. apply (I tr1 p c now old (tr2 ++ [e]) s); auto. rewrite E, <- app_assoc. auto.
Qed.

Lemma linv_reachable : forall tr s, not_forced -> lab_isolated tr -> run init tr = Some s -> linv s.
Proof.
  induction tr as [|e tr IH] using rev_ind; intros s NF Iso H.
  - injection H as <-. apply linv_init.
  - pose proof H as H0. rewrite run_app in H. destruct (run init tr) as [s1|] eqn:E; [|discriminate].
    eapply linv_step; [exact NF|exact Iso|exact E|apply IH; auto; eapply prefix_isolated; eauto|exact H].
Qed.

(* ... and as long as netlab down is not forced and does not overlap other commands for the same
   lab id, the workload of a lab id runs in one directory only, the registered one, whatever
   the interleaving of netlab up processes and whenever processes are killed. *)
Theorem one_directory_per_lab : forall tr s id d d', not_forced -> lab_isolated tr -> run init tr = Some s ->
  In (id, d) (s_run s) -> In (id, d') (s_run s) -> d = d' /\ dir_of id (s_reg s) = Some d.
Proof.
  intros tr s id d d' NF Iso H R R'. pose proof (linv_reachable _ _ NF Iso H) as I.
  apply (li_run _ I) in R. apply (li_run _ I) in R'. unfold owns in *. split; congruence.
Qed.

(* without netlab down there is nothing to isolate *)
Corollary one_directory_up_only : forall tr s id d d', (forall p, is_up p = true) -> run init tr = Some s ->
  In (id, d) (s_run s) -> In (id, d') (s_run s) -> d = d'.
Proof.
  intros tr s id d d' U H R R'. eapply (one_directory_per_lab tr s); eauto.
  - intros p f K. specialize (U p). unfold is_up in U. rewrite K in U. discriminate.
  - intros tr1 p c now old tr2 s1 _ _ q i _ _ _. auto.
Qed.

(* ---- C32 ---- *)

Definition dir_ok (s : state) (p : nat) : Prop :=
  let d := p_dir (P p) in
  match s_pc s p with
  | ULocked id | UStarting id | URunning id => locked d s = true /\ dget d (s_snap s) = Some id
  | UTopo id | UInstance id | URegistered id | DChecked id _ | DRequested id _ => dget d (s_snap s) = Some id
  | DStopped id _ | DRemoved id => dget d (s_snap s) = Some id /\ ~ In (id, d) (s_run s)
  | _ => True
  end.

Record dinv (s : state) : Prop := {
  di_run : forall id d, In (id, d) (s_run s) -> locked d s = true /\ dget d (s_snap s) = Some id;
  di_pc : forall p, dir_ok s p
}.

Lemma dinv_init : dinv init.
Proof.
  constructor.
  - intros id d [].
  - intros p. unfold dir_ok. simpl. unfold start_pc. destruct (p_kind (P p)); auto.
Qed.

(* terminal and initial phases need nothing *)
Lemma dir_ok_idle : forall s q, s_pc s q = start_pc P q \/ s_pc s q = Done \/ s_pc s q = Aborted \/ s_pc s q = Dead -> dir_ok s q.
Proof.
  intros s q [E|[E|[E|E]]]; unfold dir_ok; rewrite E; auto. unfold start_pc. destruct (p_kind (P q)); auto.
Qed.

Lemma dinv_step : forall tr s e s', not_forced -> dir_isolated (tr ++ [e]) -> run init tr = Some s ->
  dinv s -> step s e = Some s' -> dinv s'.
Proof.
  intros tr s e s' NF Iso R [I1 I2] H.
  destruct e as [p c now old|p].
  2: { cbn [Status_Model.step] in H. injection H as <-. constructor; [exact I1|].
       intros q. specialize (I2 q). unfold dir_ok in *. cbn zeta in *. simpl. destruct (Nat.eq_dec q p) as [->|N];
         [rewrite set_pc_same; auto|rewrite set_pc_other; auto]. }
  specialize (Iso tr p c now old [] s eq_refl R).
  set (d := p_dir (P p)) in *.
  (* processes in other directories are not affected *)
  assert (Rest : forall x, s_pc s' = set_pc p x (s_pc s) -> dir_ok s' p ->
     (forall d', d' <> d -> locked d' s' = locked d' s /\ dget d' (s_snap s') = dget d' (s_snap s)) ->
     (forall id d', d' <> d -> In (id, d') (s_run s') -> In (id, d') (s_run s)) ->
     (forall id, In (id, d) (s_run s') -> locked d s' = true /\ dget d (s_snap s') = Some id) -> dinv s').
  { intros x Pc Ok Fr Rn Own. constructor.
    - intros id d' K. destruct (string_dec d' d) as [->|N]; auto. destruct (Fr d' N) as [-> ->]. apply I1. auto.
    - intros q. destruct (Nat.eq_dec q p) as [->|N]; auto.
      destruct (string_dec (p_dir (P q)) d) as [Ed|Nd].
      + apply dir_ok_idle. rewrite Pc, set_pc_other by auto. apply Iso; auto.
      + specialize (I2 q). unfold dir_ok in *. cbn zeta in *. rewrite Pc, set_pc_other by auto.
        destruct (Fr _ Nd) as [F1 F2]. rewrite F1, F2. destruct (s_pc s q); auto;
          destruct I2 as [I2 I3]; split; auto. }
  assert (Quiet : forall x r, s' = mk_state r (s_lock s) (s_snap s) (s_run s) (set_pc p x (s_pc s)) -> dir_ok s' p -> dinv s').
  { intros x r E Ok. apply (Rest x); subst s'; auto. simpl. intros id K. apply I1. auto. }
  pose proof (I2 p) as Okp. unfold dir_ok in Okp. cbn zeta in Okp. fold d in Okp.
  cbn [Status_Model.step] in H.
  destruct (p_kind (P p)) as [snap id0|force] eqn:K; [unfold up_step in H|unfold down_step in H]; fold d in H;
    destruct (s_pc s p) eqn:E; try discriminate.
  - injection H as <-. eapply Quiet; [reflexivity|]. unfold dir_ok. simpl. rewrite set_pc_same. destruct (_ && _); auto.
  - destruct snap; [|destruct (locked d s) eqn:Lk].
    + injection H as <-. eapply Quiet; [reflexivity|]. unfold dir_ok. simpl. rewrite set_pc_same. fold d.
      destruct (dget d (s_snap s)) eqn:Sn; auto.
    + injection H as <-. eapply Quiet; [reflexivity|]. unfold dir_ok. simpl. rewrite set_pc_same. auto.
    + injection H as <-. eapply Rest; try reflexivity.
      * unfold dir_ok. simpl. rewrite set_pc_same. fold d. apply dget_dset_same.
      * intros d' N. simpl. rewrite dget_dset_other by auto. auto.
      * auto.
      * simpl. intros id X. apply I1 in X. destruct X. congruence.
  - injection H as <-. eapply Quiet; [reflexivity|]. unfold dir_ok. simpl. rewrite set_pc_same. fold d. destruct (other_dir _ _ _); auto.
  - destruct c; try (injection H as <-; eapply Quiet; [reflexivity|]; unfold dir_ok; simpl; rewrite set_pc_same; auto; fail);
      (destruct (lab_status_start d id now old (s_reg s)) as [r cf] eqn:L; injection H as <-; eapply Quiet; [reflexivity|];
       unfold dir_ok; simpl; rewrite set_pc_same; fold d; destruct cf; auto).
  - injection H as <-.
    assert (Lk : dmem d (dset d tt (s_lock s)) = true) by (unfold dmem; rewrite dget_dset_same; auto).
    eapply Rest; try reflexivity.
    + unfold dir_ok. simpl. rewrite set_pc_same. fold d. unfold locked. simpl. auto.
    + intros d' N. unfold locked, dmem. simpl. rewrite dget_dset_other by auto. auto.
    + auto.
    + simpl. unfold locked. simpl. intros i X. apply I1 in X. destruct X. auto.
  - injection H as <-. eapply Quiet; [reflexivity|]. unfold dir_ok. simpl. rewrite set_pc_same. auto.
  - injection H as <-. eapply Rest; try reflexivity.
    + unfold dir_ok. simpl. rewrite set_pc_same. fold d. destruct c; auto.
    + auto.
    + simpl. intros i d' N [X|X]; [congruence|auto].
    + simpl. intros i [X|X]; [injection X as <-; auto|]. apply I1. auto.
  - destruct c; injection H as <-; (eapply Quiet; [reflexivity|]); unfold dir_ok; simpl; rewrite set_pc_same; auto.
  - destruct (dget d (s_snap s)) as [id|] eqn:Sn; [destruct c|]; injection H as <-; (eapply Quiet; [reflexivity|]);
      unfold dir_ok; simpl; rewrite set_pc_same; fold d; auto. destruct (_ && _); auto.
  - injection H as <-. eapply Quiet; [reflexivity|]. unfold dir_ok. simpl. rewrite set_pc_same. auto.
  - destruct c.
    + injection H as <-. eapply Rest; try reflexivity.
      * unfold dir_ok. simpl. rewrite set_pc_same. fold d. split; auto. intros X. apply stop_run_In in X. tauto.
      * auto.
      * simpl. intros i d' N X. apply stop_run_In in X. tauto.
      * simpl. intros i X. apply stop_run_In in X. apply I1. tauto.
    + injection H as <-. eapply Quiet; [reflexivity|]. unfold dir_ok. simpl. rewrite set_pc_same. auto.
    + rewrite (NF p force K) in H. injection H as <-. eapply Quiet; [reflexivity|]. unfold dir_ok. simpl. rewrite set_pc_same. auto.
  - injection H as <-. destruct mismatch; (eapply Quiet; [reflexivity|]; unfold dir_ok; simpl; rewrite set_pc_same; auto).
  - injection H as <-. destruct Okp as [Sn Nr]. eapply Rest; try reflexivity.
    + unfold dir_ok. simpl. rewrite set_pc_same. auto.
    + intros d' N. unfold locked, dmem. simpl. rewrite dget_dpop_other by auto. auto.
    + auto.
    + simpl. intros i X. exfalso. destruct (I1 _ _ X) as [_ S2]. assert (i = id) by congruence. subst i. contradiction.
Qed.

Lemma dinv_reachable : forall tr s, not_forced -> dir_isolated tr -> run init tr = Some s -> dinv s.
Proof.
  induction tr as [|e tr IH] using rev_ind; intros s NF Iso H.
  - injection H as <-. apply dinv_init.
  - pose proof H as H0. rewrite run_app in H. destruct (run init tr) as [s1|] eqn:E; [|discriminate].
    eapply dinv_step; [exact NF|exact Iso|exact E|apply IH; auto|exact H].
    intros tr1 p c now old tr2 s2 E2 R. apply (Iso tr1 p c now old (tr2 ++ [e]) s2); auto. rewrite E2, <- app_assoc. auto.
Qed.

(* C32: when the commands in a directory run one after another (and netlab down is not forced),
   a directory with a workload is locked, and all of the workload belongs to the lab in the
   snapshot file; *)
Theorem running_directory_locked : forall tr s id d, not_forced -> dir_isolated tr -> run init tr = Some s ->
  In (id, d) (s_run s) -> locked d s = true /\ dget d (s_snap s) = Some id.
Proof. intros tr s id d NF Iso H. apply (di_run _ (dinv_reachable _ _ NF Iso H)). Qed.

(* ... so netlab up without --snapshot is refused in a directory with a workload. *)
Theorem running_directory_refused : forall tr s id p id0 c now old s', not_forced -> dir_isolated tr -> run init tr = Some s ->
  In (id, p_dir (P p)) (s_run s) -> p_kind (P p) = Up false id0 -> s_pc s p = UStart ->
  step s (Step p c now old) = Some s' ->
  s_pc s' p = Aborted /\ s_run s' = s_run s /\ s_reg s' = s_reg s /\ s_snap s' = s_snap s.
Proof.
  intros tr s id p id0 c now old s' NF Iso H R K E St.
  destruct (running_directory_locked _ _ _ _ NF Iso H R) as [L _].
  cbn [Status_Model.step] in St. rewrite K in St. unfold up_step in St. rewrite E, L in St. injection St as <-.
  simpl. rewrite set_pc_same. auto.
Qed.
End Labs.

Definition steps (p n : nat) : list event := repeat (Step p Go "" true) n.

(* lab "x" in directories /a and /b: processes 0 and 1 are netlab up, 2, 3 and 4 netlab down in /a *)
Definition two_dirs (p : nat) : proc :=
  match p with
  | 0 => mk_proc (Up false "x") "/a"
  | 1 => mk_proc (Up false "x") "/b"
  | _ => mk_proc (Down 0) "/a"
  end.

(* both start at the same time, the second one loses *)
Example conflict_case :
  match run two_dirs (init two_dirs) (steps 0 3 ++ steps 1 3 ++ steps 0 5 ++ steps 1 1) with
  | Some s => s_pc s 0 = Done /\ s_pc s 1 = Aborted /\ s_run s = [("x", "/a")]%string /\ dir_of "x" (s_reg s) = Some "/a"%string
  | None => False
  end.
Proof. vm_compute. auto. Qed.

(* a process killed before it started the workload leaves the registration, not the workload *)
Example crash_case :
  match run two_dirs (init two_dirs) (steps 0 4 ++ [Crash 0] ++ steps 1 3) with
  | Some s => s_pc s 1 = Aborted /\ s_run s = [] /\ dir_of "x" (s_reg s) = Some "/a"%string
  | None => False
  end.
Proof. vm_compute. auto. Qed.

(* deciding isolation of a concrete execution, to show that the conditions can be met *)
Fixpoint iso_check (P : nat -> proc) (f : state -> nat -> nat -> bool) (pids : list nat) (s : state) (tr : list event) : bool :=
  match tr with
  | [] => true
  | e :: r =>
      (match e with Step p _ _ _ => forallb (fun q => Nat.eqb q p || f s p q) pids | Crash _ => true end) &&
      match step P s e with Some s' => iso_check P f pids s' r | None => true end
  end.

Lemma iso_check_ok : forall P f pids tr1 s0 p c now old tr2 s, iso_check P f pids s0 (tr1 ++ Step p c now old :: tr2) = true ->
  run P s0 tr1 = Some s -> forall q, In q pids -> q <> p -> f s p q = true.
Proof.
  induction tr1 as [|e tr1 IH]; intros s0 p c now old tr2 s H R q Q N.
  - injection R as <-. cbn [app iso_check] in H. apply andb_true_iff in H. destruct H as [H _]. rewrite forallb_forall in H.
    specialize (H q Q). destruct (Nat.eqb_spec q p); [contradiction|]. exact H.
  - cbn [app iso_check run] in H, R. apply andb_true_iff in H. destruct H as [_ H]. destruct (step P s0 e); [|discriminate]. eauto.
Qed.

Definition event_pid (e : event) : nat := match e with Step p _ _ _ => p | Crash p => p end.

Lemma other_pc : forall P s e s' q, step P s e = Some s' -> event_pid e <> q -> s_pc s' q = s_pc s q.
Proof.
  intros P s e s' q H N. destruct e as [p c now old|p]; cbn [step event_pid] in *;
    [|injection H as <-; simpl; apply set_pc_other; auto].
  destruct (p_kind (P p)); [unfold up_step in H|unfold down_step in H]; destruct (s_pc s p); try discriminate;
    repeat match type of H with
           | Some _ = Some _ => fail 1
           | (let '(_, _) := ?c in _) = _ => destruct c
           | (if ?c then _ else _) = _ => destruct c
           | (match ?c with _ => _ end) = _ => destruct c
           end; injection H as <-; try match goal with |- context [if ?m then s else _] => destruct m end;
    simpl; apply set_pc_other; auto.
Qed.

Lemma unmentioned : forall P tr s0 s q, run P s0 tr = Some s -> ~ In q (map event_pid tr) -> s_pc s q = s_pc s0 q.
Proof.
  induction tr as [|e tr IH]; intros s0 s q R N; cbn [run] in R; [congruence|].
  destruct (step P s0 e) as [s1|] eqn:E; [|discriminate]. simpl in N.
  rewrite (IH s1 s q R) by tauto. eapply other_pc; [exact E|tauto].
Qed.

Definition lab_check (P : nat -> proc) (s : state) (p q : nat) : bool :=
  match pc_id (s_pc s p), pc_id (s_pc s q) with
  | Some a, Some b => negb (String.eqb a b) || (is_up P p && is_up P q)
  | _, _ => true
  end.

Lemma lab_isolated_check : forall P tr, iso_check P (lab_check P) (map event_pid tr) (init P) tr = true -> lab_isolated P tr.
Proof.
  intros P tr H tr1 p c now old tr2 s E R q id N Hp Hq.
  destruct (in_dec Nat.eq_dec q (map event_pid tr)) as [I|I].
  - rewrite E in H at 2. pose proof (iso_check_ok _ _ _ _ _ _ _ _ _ _ _ H R q I N) as C. unfold lab_check in C.
    rewrite Hp, Hq, String.eqb_refl in C. simpl in C. apply andb_true_iff in C. auto.
  - rewrite (unmentioned P tr1 (init P) s q R) in Hq.
    + simpl in Hq. unfold start_pc in Hq. destruct (p_kind (P q)); discriminate.
    + intros K. apply I. rewrite E, map_app. apply in_app_iff. auto.
Qed.

Definition idle (P : nat -> proc) (q : nat) (x : pc) : bool :=
  match x with
  | Done | Aborted | Dead => true
  | UStart => is_up P q
  | DStart => negb (is_up P q)
  | _ => false
  end.

Definition dir_check (P : nat -> proc) (s : state) (p q : nat) : bool :=
  negb (String.eqb (p_dir (P q)) (p_dir (P p))) || idle P q (s_pc s q).

Lemma dir_isolated_check : forall P tr, iso_check P (dir_check P) (map event_pid tr) (init P) tr = true -> dir_isolated P tr.
Proof.
  intros P tr H tr1 p c now old tr2 s E R q N D.
  destruct (in_dec Nat.eq_dec q (map event_pid tr)) as [I|I].
  - rewrite E in H at 2. pose proof (iso_check_ok _ _ _ _ _ _ _ _ _ _ _ H R q I N) as C. unfold dir_check in C.
    rewrite D, String.eqb_refl in C. simpl in C. unfold idle, is_up in C. unfold start_pc.
    destruct (s_pc s q), (p_kind (P q)); auto; discriminate.
  - left. rewrite (unmentioned P tr1 (init P) s q R); auto.
    intros K. apply I. rewrite E, map_app. apply in_app_iff. auto.
Qed.

(* the lab is started in /a, shut down, and started in /b while a second attempt in /a is made *)
Definition good_trace : list event := steps 0 8 ++ steps 2 5 ++ steps 1 8 ++ steps 3 1 ++ [Crash 3].

Example isolated_case :
  not_forced two_dirs /\ lab_isolated two_dirs good_trace /\ dir_isolated two_dirs good_trace /\
  match run two_dirs (init two_dirs) good_trace with
  | Some s => s_run s = [("x", "/b")]%string /\ dir_of "x" (s_reg s) = Some "/b"%string /\ locked "/b" s = true /\ locked "/a" s = false
  | None => False
  end.
Proof.
  split; [intros p f H; destruct p as [|[|p]]; simpl in H; congruence|].
  split; [apply lab_isolated_check; vm_compute; reflexivity|].
  split; [apply dir_isolated_check; vm_compute; reflexivity|]. vm_compute. auto.
Qed.

(* Two overlapping netlab down commands in /a: the second one removes the registration of the lab
   that was started in /b in the meantime, and the lab can be started again in /a. *)
Theorem one_directory_refuted : exists P tr s, not_forced P /\ run P (init P) tr = Some s /\
  In ("x", "/a")%string (s_run s) /\ In ("x", "/b")%string (s_run s) /\ (forall p, ~ In (Crash p) tr).
Proof.
  exists (fun p => match p with 5 => mk_proc (Up false "x") "/a" | _ => two_dirs p end),
    (steps 0 8 ++ steps 2 1 ++ steps 3 5 ++ steps 1 8 ++ steps 2 4 ++ steps 5 8).
  eexists. split; [intros p f H; destruct p as [|[|[|[|[|[|p]]]]]]; simpl in H; congruence|].
  split; [vm_compute; reflexivity|]. split; [simpl; auto|]. split; [simpl; auto|].
  intros p H. vm_compute in H. repeat (destruct H as [H|H]; [discriminate|]). contradiction.
Qed.

(* a single netlab down is enough when the lab was never registered: /a has a snapshot only *)
Theorem foreign_registration_removed_refuted : exists P tr s s' e, not_forced P /\ run P (init P) tr = Some s /\
  step P s e = Some s' /\ dir_of "x" (s_reg s) = Some "/b"%string /\ dir_of "x" (s_reg s') = None /\
  exists p c now old, e = Step p c now old /\ p_dir (P p) = "/a"%string.
Proof.
  exists two_dirs, (steps 0 2 ++ [Crash 0] ++ steps 2 1 ++ steps 1 8 ++ steps 2 2). eexists. eexists. exists (Step 2 Go "" true).
  split; [intros p f H; destruct p as [|[|p]]; simpl in H; congruence|].
  split; [vm_compute; reflexivity|]. split; [vm_compute; reflexivity|]. split; [reflexivity|]. split; [reflexivity|].
  exists 2, Go, ""%string, true. auto.
Qed.

(* two netlab up processes in the same directory pass the lock check and both start their labs *)
Theorem lock_race_refuted : exists P tr s d, run P (init P) tr = Some s /\ (forall p, is_up P p = true) /\
  (forall p s0, p_kind (P p) = Up s0 "x" \/ p_kind (P p) = Up s0 "y" -> s0 = false) /\
  In ("x", d)%string (s_run s) /\ In ("y", d)%string (s_run s).
Proof.
  exists (fun p => match p with 0 => mk_proc (Up false "x") "/a" | _ => mk_proc (Up false "y") "/a" end),
    (steps 0 3 ++ steps 1 3 ++ steps 0 5 ++ steps 1 5). eexists. exists "/a"%string.
  split; [vm_compute; reflexivity|]. split; [intros [|p]; reflexivity|].
  split; [intros [|p] s0 [H|H]; simpl in H; congruence|]. split; simpl; auto.
Qed.

(* forced netlab down unlocks a directory with a running lab *)
Theorem forced_down_refuted : exists P tr s, run P (init P) tr = Some s /\
  In ("x", "/a")%string (s_run s) /\ locked "/a" s = false /\ dir_of "x" (s_reg s) = None.
Proof.
  exists (fun p => match p with 0 => mk_proc (Up false "x") "/a" | _ => mk_proc (Down 1) "/a" end),
    (steps 0 8 ++ steps 1 2 ++ [Step 1 Fail "" true] ++ steps 1 2). eexists.
  split; [vm_compute; reflexivity|]. split; [simpl; auto|]. split; reflexivity.
Qed.

Print Assumptions updates_exclusive.
Print Assumptions updates_serialized.
Print Assumptions update_not_lost.
Print Assumptions torn_only_by_crash.
Print Assumptions crash_destroys_status.
Print Assumptions reset_lost_refuted.
Print Assumptions status_update_effect.
Print Assumptions status_change_logged.
Print Assumptions registration_stable.
Print Assumptions conflict_aborts.
Print Assumptions started_was_registered.
Print Assumptions one_directory_per_lab.
Print Assumptions one_directory_up_only.
Print Assumptions running_directory_locked.
Print Assumptions running_directory_refused.
Print Assumptions one_directory_refuted.
Print Assumptions foreign_registration_removed_refuted.
Print Assumptions lock_race_refuted.
Print Assumptions forced_down_refuted.
Print Assumptions providers_recorded.
