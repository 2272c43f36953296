(* Properties C13-C14: dependency sort. *)
From Coq Require Import String Lia Bool List Permutation Relations.
From Verif Require Import Base Graph Sort_Model.
Import ListNotations.

(* ------------------------------------------------------------------ *)
(* Specification                                                        *)

(* [m] depends on [r] and both are in the list *)
Definition depends (dep : string -> list string) (mods : list string) (m r : string) : Prop :=
  In m mods /\ In r mods /\ In r (dep m).

(* no dependency of an element occurs at its own position or later *)
Definition in_dependency_order (dep : string -> list string) (out : list string) : Prop :=
  forall l1 m l2, out = l1 ++ m :: l2 -> forall r, In r (dep m) -> ~ In r (m :: l2).

Definition cyclic (dep : string -> list string) (mods : list string) : Prop :=
  exists x, clos_trans string (depends dep mods) x x.

(* ------------------------------------------------------------------ *)

Lemma blocked_true : forall dep mods m,
  blocked dep mods m = true <-> exists r, In r (dep m) /\ In r mods.
Proof.
  intros. unfold blocked.
  destruct (filter (fun r => memS r mods) (dep m)) as [|r t] eqn:E.
  - split; [discriminate|]. intros [r [H1 H2]].
    assert (In r (filter (fun r => memS r mods) (dep m))).
    { apply filter_In. split; auto. now apply memS_true. }
    rewrite E in H. contradiction.
  - split; auto. intros _. exists r.
    assert (In r (filter (fun r => memS r mods) (dep m))) by (rewrite E; left; auto).
    apply filter_In in H. destruct H as [H1 H2]. apply memS_true in H2. auto.
Qed.

Lemma pass_spec : forall dep mods todo sk out,
  pass dep mods todo = (sk, out) ->
  Permutation todo (out ++ sk) /\
  (forall m, In m out -> forall r, In r (dep m) -> ~ In r mods) /\
  (forall m, In m sk <-> In m todo /\ blocked dep mods m = true) /\
  length sk <= length todo.
Proof.
  induction todo as [|m r IH]; simpl; intros sk out H.
  - inversion H; subst. simpl. repeat split; auto; try tauto.
  - destruct (pass dep mods r) as [sk1 out1] eqn:P.
    destruct (IH _ _ eq_refl) as [H1 [H2 [H3 H4]]].
    destruct (blocked dep mods m) eqn:B; inversion H; subst; clear H.
    + split; [rewrite H1; apply Permutation_middle|]. split; auto. split; [|simpl; lia].
      intros x. simpl. rewrite H3. split.
      * intros [<-|[Hx1 Hx2]]; auto.
      * intros [[<-|Hx1] Hx2]; auto.
    + split; [simpl; constructor; auto|]. split; [|split; [|lia]].
      * intros x [<-|Hx]; [|exact (H2 x Hx)]. intros d Hd C.
        assert (blocked dep mods m = true) by (apply blocked_true; eauto). congruence.
      * intros x. rewrite H3. split.
        -- intros [Hx1 Hx2]; auto.
        -- intros [[<-|Hx1] Hx2]; [congruence|auto].
Qed.

(* objects emitted later than their dependencies *)
Lemma loop_order : forall dep w mods output out,
  dep_loop dep w mods output = Ok out ->
  exists added, out = output ++ added /\ Permutation mods added /\ in_dependency_order dep added.
Proof.
  induction w as [|w IH]; intros mods output out H.
  - destruct mods as [|m r]; simpl in H.
    + inversion H; subst. exists []. rewrite app_nil_r. repeat split; auto.
      intros l1 m l2 E. destruct l1; discriminate.
    + destruct (pass dep (m :: r) r) as [a b]. destruct (blocked dep (m :: r) m); discriminate.
  - destruct mods as [|m r].
    + simpl in H. inversion H; subst. exists []. rewrite app_nil_r. repeat split; auto.
      intros l1 m l2 E. destruct l1; discriminate.
    + remember (m :: r) as mods eqn:Em. cbn [dep_loop] in H.
      destruct (pass dep mods mods) as [sk ad] eqn:P.
      assert (H' : dep_loop dep w sk (output ++ ad) = Ok out) by (destruct mods; [discriminate|exact H]).
      apply IH in H'. destruct H' as [add2 [E1 [E2 E3]]].
      destruct (pass_spec _ _ _ _ _ P) as [P1 [P2 [P3 P4]]].
      exists (ad ++ add2). split; [rewrite E1, app_assoc; auto|]. split.
      { rewrite P1. now apply Permutation_app_head. }
      intros l1 x l2 E d Hd Hin.
      assert (Sub : forall y, In y (ad ++ add2) -> In y mods).
      { intros y Hy. eapply Permutation_in; [symmetry; exact P1|]. apply in_app_iff in Hy.
        apply in_app_iff. destruct Hy; auto. right. eapply Permutation_in; [symmetry; exact E2|auto]. }
      apply app_eq_app in E. destruct E as [l [[E4 E5]|[E4 E5]]].
      * (* ad = l1 ++ l, x :: l2 = l ++ add2 *)
        destruct l as [|y l].
        -- simpl in E5. apply (E3 [] x l2 (eq_sym E5) d Hd Hin).
        -- inversion E5; subst y l2. apply (P2 x) with (r := d).
           ++ rewrite E4. apply in_app_iff; right; left; auto.
           ++ auto.
           ++ apply Sub. rewrite E4. rewrite <- app_assoc. apply in_app_iff. right. simpl in *.
              exact Hin.
      * (* l1 = ad ++ l, add2 = l ++ x :: l2 *)
        apply (E3 l x l2 E5 d Hd Hin).
Qed.

Lemma single_order : forall dep m, ~ In m (dep m) -> in_dependency_order dep [m].
Proof.
  intros dep m H l1 x l2 E d Hd Hin. destruct l1 as [|y l1]; [|destruct l1; discriminate].
  inversion E; subst. simpl in Hin. destruct Hin as [<-|[]]; auto.
Qed.

(* C13 *)
Theorem dependency_sort_sound : forall dep mods out,
  dependency dep mods = Ok out ->
  Permutation mods out /\ (2 <= length mods -> in_dependency_order dep out).
Proof.
  intros dep mods out H. unfold dependency in H.
  destruct mods as [|a [|b r]].
  - inversion H; subst. split; auto. simpl. lia.
  - inversion H; subst. split; auto. simpl. lia.
  - apply loop_order in H. destruct H as [ad [-> [H1 H2]]]. auto.
Qed.

Definition ex_dep (m : string) : list string :=
  if String.eqb m "bgp" then ["routing"; "vrf"; "x"]%string
  else if String.eqb m "evpn" then ["bgp"; "vxlan"]%string
  else if String.eqb m "vxlan" then ["vlan"]%string else [].

Example dependency_sort_case :
  dependency ex_dep ["evpn"; "bgp"; "vxlan"; "vlan"; "vrf"]%string
  = Ok ["vlan"; "vrf"; "bgp"; "vxlan"; "evpn"]%string.
Proof. reflexivity. Qed.

(* a single object with a dependency on itself is returned without an error *)
Theorem single_object_self_dependency_refuted :
  exists dep mods out, dependency dep mods = Ok out /\ cyclic dep mods /\ ~ in_dependency_order dep out.
Proof.
  exists (fun _ => ["a"]%string), ["a"]%string, ["a"]%string. split; [reflexivity|]. split.
  - exists "a"%string. apply t_step. repeat split; left; auto.
  - intros H. apply (H [] "a"%string [] eq_refl "a"%string); left; auto.
Qed.

(* ------------------------------------------------------------------ *)
(* C14 *)

Lemma loop_acyclic : forall dep w mods output,
  ~ cyclic dep mods -> length mods <= w -> exists out, dep_loop dep w mods output = Ok out.
Proof.
  induction w as [|w IH]; intros mods output Hc Hl.
  - destruct mods; simpl in *; [eauto|lia].
  - destruct mods as [|m r]; [simpl; eauto|].
    remember (m :: r) as mods eqn:Em. cbn [dep_loop].
    destruct (pass dep mods mods) as [sk ad] eqn:P.
    destruct (pass_spec _ _ _ _ _ P) as [P1 [P2 [P3 P4]]].
    assert (L : length sk < length mods).
    { pose proof (Permutation_length P1) as PL. rewrite app_length in PL.
      destruct ad as [|x ad]; [|simpl in PL; lia]. exfalso. apply Hc.
      destruct (no_sink_cycle (fun a b => In b (dep a)) mods) as [x [Hx Cx]].
      - subst; discriminate.
      - intros x Hx. simpl in P1. assert (Hs : In x sk) by (eapply Permutation_in; eauto).
        apply P3 in Hs. destruct Hs as [_ Hs]. apply blocked_true in Hs.
        destruct Hs as [y [Hy1 Hy2]]. eauto.
      - exists x. eapply tc_incl; [|exact Cx]. unfold depends. tauto. }
    assert (Hs : ~ cyclic dep sk).
    { intros [x Cx]. apply Hc. exists x. eapply tc_incl; [|exact Cx].
      intros a b [H1 [H2 H3]]. repeat split; auto; apply P3; auto. }
    destruct (IH sk (output ++ ad) Hs) as [out Ho]; [lia|].
    exists out. destruct mods; [discriminate|exact Ho].
Qed.

Lemma loop_cyclic : forall dep w mods output,
  cyclic dep mods -> dep_loop dep w mods output = Err DependencyLoop.
Proof.
  induction w as [|w IH]; intros mods output [x Cx].
  - destruct mods as [|m r].
    + exfalso. apply tc_first in Cx. destruct Cx as [z [[H _] _]]. contradiction.
    + simpl. destruct (pass dep (m :: r) r) as [a b]. destruct (blocked dep (m :: r) m); reflexivity.
  - destruct mods as [|m r].
    + exfalso. apply tc_first in Cx. destruct Cx as [z [[H _] _]]. contradiction.
    + remember (m :: r) as mods eqn:Em. cbn [dep_loop].
      destruct (pass dep mods mods) as [sk ad] eqn:P.
      destruct (pass_spec _ _ _ _ _ P) as [P1 [P2 [P3 P4]]].
      assert (Cs : cyclic dep sk).
      { exists x.
        assert (G : forall a b, clos_trans string (depends dep mods) a b ->
                   clos_trans string (depends dep mods) b x ->
                   clos_trans string (depends dep sk) a b).
        { induction 1 as [a b [H1 [H2 H3]]|a b c H1 IH1 H2 IH2]; intros Hb.
          - apply t_step. split; [apply P3; split; auto; apply blocked_true; eauto|].
            split; auto. apply P3. split; auto.
            apply tc_first in Hb. destruct Hb as [z [[_ [Hz1 Hz2]] _]]. apply blocked_true. eauto.
          - eapply t_trans; [apply IH1; eapply t_trans; eauto|apply IH2; auto]. }
        apply G; auto. }
      specialize (IH sk (output ++ ad) Cs). destruct mods; [discriminate|exact IH].
Qed.

(* Sorting two or more objects fails exactly when the dependencies inside the list form a
   cycle; the watchdog never fires on acyclic input. *)
Theorem dependency_sort_fails_iff_cycle : forall dep mods,
  2 <= length mods ->
  (dependency dep mods = Err DependencyLoop <-> cyclic dep mods) /\
  ((exists out, dependency dep mods = Ok out) <-> ~ cyclic dep mods).
Proof.
  intros dep mods L.
  assert (E : dependency dep mods = dep_loop dep (length mods) mods []).
  { destruct mods as [|a [|b r]]; simpl in L; try lia. reflexivity. }
  rewrite E.
  destruct (dep_loop dep (length mods) mods []) as [out|[]] eqn:D.
  - assert (N : ~ cyclic dep mods).
    { intros C. rewrite (loop_cyclic dep (length mods) mods [] C) in D. discriminate. }
    split; split; intros H; try discriminate; try contradiction; eauto.
  - assert (C : ~ ~ cyclic dep mods).
    { intros N. destruct (loop_acyclic dep (length mods) mods [] N (le_n _)) as [out Ho]. congruence. }
    split; split; intros H.
    + (* extract the cycle: the last set of skipped objects has no sink *)
      clear - D.
      assert (G : forall w ms o, dep_loop dep w ms o = Err DependencyLoop -> length ms <= w -> cyclic dep ms).
      { induction w as [|w IH]; intros ms o H Hl.
        - destruct ms; simpl in *; [discriminate|lia].
        - destruct ms as [|m r]; [simpl in H; discriminate|].
          remember (m :: r) as ms eqn:Em. cbn [dep_loop] in H.
          destruct (pass dep ms ms) as [sk ad] eqn:P.
          destruct (pass_spec _ _ _ _ _ P) as [P1 [P2 [P3 P4]]].
          assert (H' : dep_loop dep w sk (o ++ ad) = Err DependencyLoop) by (destruct ms; [discriminate|exact H]).
          destruct ad as [|x ad].
          + simpl in P1. destruct (no_sink_cycle (fun a b => In b (dep a)) ms) as [x [Hx Cx]].
            * subst; discriminate.
            * intros x Hx. assert (Hs : In x sk) by (eapply Permutation_in; eauto).
              apply P3 in Hs. destruct Hs as [_ Hs]. apply blocked_true in Hs.
              destruct Hs as [y [Hy1 Hy2]]. eauto.
            * exists x. eapply tc_incl; [|exact Cx]. unfold depends. tauto.
          + pose proof (Permutation_length P1) as PL. rewrite app_length in PL. simpl in PL.
            apply IH in H'; [|lia]. destruct H' as [y Cy]. exists y. eapply tc_incl; [|exact Cy].
            intros a b [H1 [H2 H3]]. repeat split; auto; apply P3; auto. }
      eapply G; eauto.
    + reflexivity.
    + destruct H; discriminate.
    + exfalso. auto.
Qed.

Example dependency_loop_case :
  dependency (fun m => if String.eqb m "a" then ["b"] else if String.eqb m "b" then ["a"] else [])%string
             ["c"; "a"; "b"]%string = Err DependencyLoop /\
  cyclic (fun m => if String.eqb m "a" then ["b"] else if String.eqb m "b" then ["a"] else [])%string
         ["c"; "a"; "b"]%string.
Proof.
  split; [reflexivity|]. exists "a"%string.
  apply t_trans with "b"%string; apply t_step; unfold depends; simpl; tauto.
Qed.

Print Assumptions dependency_sort_sound.
Print Assumptions single_object_self_dependency_refuted.
Print Assumptions dependency_sort_fails_iff_cycle.
