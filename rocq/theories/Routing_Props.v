(* Routing policies, static route includes, prefix lists and imports: C44, C45, C46, C71, C72. *)
From Coq Require Import String ZArith Lia Bool List Permutation Sorted.
From Verif Require Import Base Box_Model Routing_Model.
Import ListNotations.
Open Scope Z_scope.

(* ------------------------------------------------------------------ *)
(* C44: import of routing objects                                       *)

Definition seq_le (a b : rentry) : Prop := re_seq a <= re_seq b.
Definition with_seq (s : Z) (l : list rentry) : list rentry := filter (fun e => re_seq e =? s) l.

Lemma insert_perm : forall e l, Permutation (insert_seq e l) (e :: l).
Proof.
  induction l as [|x l IH]; cbn [insert_seq]; auto. destruct (re_seq e <=? re_seq x); auto.
  rewrite IH. apply perm_swap.
Qed.

Lemma sort_perm : forall l, Permutation (sort_seq l) l.
Proof. induction l as [|e l IH]; cbn [sort_seq]; auto. rewrite insert_perm. auto. Qed.

Lemma insert_sorted : forall e l, StronglySorted seq_le l -> StronglySorted seq_le (insert_seq e l).
Proof.
  induction l as [|x l IH]; intros S; cbn [insert_seq]; [repeat constructor|].
  inversion S as [|? ? S1 S2]; subst. destruct (re_seq e <=? re_seq x) eqn:E.
  - apply Z.leb_le in E. constructor; auto. constructor; auto. eapply Forall_impl; [|exact S2]. unfold seq_le. intros; lia.
  - apply Z.leb_gt in E. constructor; auto. apply Forall_forall. intros y Hy.
    apply (Permutation_in _ (insert_perm e l)) in Hy. destruct Hy as [<-|Hy]; [unfold seq_le; lia|].
    rewrite Forall_forall in S2. auto.
Qed.

Lemma sort_sorted : forall l, StronglySorted seq_le (sort_seq l).
Proof. induction l as [|e l IH]; cbn [sort_seq]; [constructor|]. apply insert_sorted. auto. Qed.

Lemma insert_stable : forall s e l, with_seq s (insert_seq e l) = with_seq s (e :: l).
Proof.
  intros s e. induction l as [|x l IH]; cbn [insert_seq]; auto. destruct (re_seq e <=? re_seq x) eqn:E; auto.
  apply Z.leb_gt in E. unfold with_seq in *. cbn [filter] in *. rewrite IH.
  destruct (Z.eqb_spec (re_seq e) s); destruct (Z.eqb_spec (re_seq x) s); auto. lia.
Qed.

Lemma sort_stable : forall s l, with_seq s (sort_seq l) = with_seq s l.
Proof.
  intros s. induction l as [|e l IH]; cbn [sort_seq]; auto. rewrite insert_stable.
  unfold with_seq in *. cbn [filter]. rewrite IH. auto.
Qed.

Lemma sort_id : forall l, StronglySorted seq_le l -> sort_seq l = l.
Proof.
  induction l as [|e l IH]; intros S; auto. inversion S as [|? ? S1 S2]; subst. cbn [sort_seq]. rewrite IH; auto.
  destruct l as [|x l]; auto. cbn [insert_seq]. inversion S2 as [|? ? C _]; subst. unfold seq_le in C.
  apply Z.leb_le in C. rewrite C. auto.
Qed.

(* Merging a node object with the topology object of the same name: node entries are kept, entries with
   sequence numbers not used by the node are added; when something is added the list is sorted by
   sequence numbers and entries with the same number stay in order. *)
Theorem import_merged : forall pname node topo np tp r node',
  dget pname node = Some (Some np) -> dget pname topo = Some tp -> import_routing_object pname node topo = (r, node') ->
  exists l, dget pname node' = Some (Some l)
  /\ (forall e, In e l <-> In e np \/ (In e tp /\ ~ In (re_seq e) (map re_seq np)))
  /\ (forall s, with_seq s l = if memZ s (map re_seq np) then with_seq s np else with_seq s tp)
  /\ ((r = ImpNone /\ l = np /\ node' = node /\ incl (map re_seq tp) (map re_seq np))
      \/ (r = ImpList l /\ StronglySorted seq_le l /\ ~ incl (map re_seq tp) (map re_seq np)))
  /\ (forall k, k <> pname -> dget k node' = dget k node).
Proof.
  intros pname node topo np tp r node' Hn Ht H. unfold import_routing_object in H. rewrite Hn, Ht in H.
  set (add := filter (fun e => negb (memZ (re_seq e) (map re_seq np))) tp) in *.
  assert (Add : forall e, In e add <-> In e tp /\ ~ In (re_seq e) (map re_seq np)).
  { intros e. unfold add. rewrite filter_In, negb_true_iff, memZ_false. tauto. }
  assert (WA : forall s, with_seq s (np ++ add) = if memZ s (map re_seq np) then with_seq s np else with_seq s tp).
  { intros s. unfold with_seq. rewrite filter_app. destruct (memZ s (map re_seq np)) eqn:M.
    - apply memZ_true in M. assert (filter (fun e => re_seq e =? s) add = []) as ->; [|apply app_nil_r].
      clear - M. unfold add. induction tp as [|e tp IH]; auto. cbn [filter].
      destruct (memZ (re_seq e) (map re_seq np)) eqn:C; cbn [negb]; auto. cbn [filter].
      destruct (Z.eqb_spec (re_seq e) s) as [E|E]; auto. apply memZ_false in C. congruence.
    - apply memZ_false in M. assert (filter (fun e => re_seq e =? s) np = []) as ->.
      { clear - M. induction np as [|e np IH]; auto. cbn [filter map In] in *.
        destruct (Z.eqb_spec (re_seq e) s) as [E|E]; [exfalso; apply M; auto|]. apply IH. intros C. apply M. auto. }
      cbn [app]. clear - M. unfold add. induction tp as [|e tp IH]; auto. cbn [filter].
      destruct (memZ (re_seq e) (map re_seq np)) eqn:C; cbn [negb].
      + destruct (Z.eqb_spec (re_seq e) s) as [E|E]; auto. apply memZ_true in C. congruence.
      + cbn [filter]. rewrite IH. auto. }
  assert (Inc : add = [] <-> incl (map re_seq tp) (map re_seq np)).
  { split.
    - intros E s Hs. apply in_map_iff in Hs. destruct Hs as [e [<- He]].
      destruct (in_dec Z.eq_dec (re_seq e) (map re_seq np)) as [D|D]; auto. exfalso.
      assert (In e add) by (apply Add; auto). rewrite E in H0. destruct H0.
    - intros I. destruct add as [|e add'] eqn:E; auto. exfalso. destruct (proj1 (Add e)) as [A B]; [left; auto|].
      apply B. apply I. apply in_map. auto. }
  destruct add as [|e0 add'] eqn:E.
  - injection H as <- <-. exists np. split; [auto|]. split; [|split; [|split]].
    + intros e. rewrite <- Add. cbn [In]. tauto.
    + intros s. rewrite <- WA, app_nil_r. auto.
    + left. repeat (split; auto). apply Inc. auto.
    + auto.
  - rewrite <- E in *. assert (Nb : add <> []) by (rewrite E; discriminate). injection H as <- <-.
    exists (sort_seq (np ++ add)). split; [apply dget_dset_same|]. split; [|split; [|split]].
    + intros e. rewrite <- Add. rewrite <- in_app_iff. split; intros Hin.
      * apply (Permutation_in _ (sort_perm (np ++ add))). auto.
      * apply (Permutation_in _ (Permutation_sym (sort_perm (np ++ add)))). auto.
    + intros s. rewrite sort_stable. apply WA.
    + right. split; [auto|]. split; [apply sort_sorted|]. intros C. apply Nb. apply Inc. auto.
    + intros k N. apply dget_dset_other. auto.
Qed.

(* A missing object (or a placeholder) is copied from the topology; an object in neither place is reported. *)
Theorem import_copied : forall pname node topo, (dget pname node = None \/ dget pname node = Some None) ->
  match dget pname topo with
  | None => import_routing_object pname node topo = (ImpError, node)
  | Some l => exists node', import_routing_object pname node topo = (ImpList l, node') /\ dget pname node' = Some (Some l)
              /\ forall k, k <> pname -> dget k node' = dget k node
  end.
Proof.
  intros pname node topo H. unfold import_routing_object.
  assert (E : forall (A : Type) (a : A) (f : list rentry -> A),
     match dget pname node with None => a | Some None => a | Some (Some l) => f l end = a).
  { intros A a f. destruct H as [H|H]; rewrite H; auto. }
  rewrite E. destruct (dget pname topo) as [l|]; auto. eexists. split; [reflexivity|].
  split; [apply dget_dset_same|]. intros k N. apply dget_dset_other. auto.
Qed.

Lemma import_dup_lemma : forall pname node topo r node' x, import_routing_object pname node topo = (r, node') -> r <> ImpError ->
  dget pname topo = Some x -> fst (import_routing_object pname node' topo) = ImpNone /\ snd (import_routing_object pname node' topo) = node'.
Proof.
  intros pname node topo r node' x H R Ht.
  assert (G : exists l, dget pname node' = Some (Some l) /\ incl (map re_seq x) (map re_seq l)).
  { destruct (dget pname node) as [[np|]|] eqn:D.
    - destruct (import_merged _ _ _ _ _ _ _ D Ht H) as [l [L1 [L2 _]]]. exists l. split; auto.
      intros s Hs. apply in_map_iff in Hs. destruct Hs as [e [<- He]].
      destruct (in_dec Z.eq_dec (re_seq e) (map re_seq np)) as [C|C].
      + apply in_map_iff in C. destruct C as [e' [E He']]. rewrite <- E. apply in_map. apply L2. auto.
      + apply in_map. apply L2. auto.
    - pose proof (import_copied pname node topo (or_intror D)) as C. rewrite Ht in C. destruct C as [n' [C1 [C2 _]]].
      assert (n' = node') by congruence. subst n'. exists x. split; auto. apply incl_refl.
    - pose proof (import_copied pname node topo (or_introl D)) as C. rewrite Ht in C. destruct C as [n' [C1 [C2 _]]].
      assert (n' = node') by congruence. subst n'. exists x. split; auto. apply incl_refl. }
  destruct G as [l [G1 G2]]. destruct (import_routing_object pname node' topo) as [r2 node2] eqn:E.
  destruct (import_merged _ _ _ _ _ _ _ G1 Ht E) as [l2 [_ [_ [_ [[M|M] _]]]]].
  - destruct M as [-> [_ [-> _]]]. auto.
  - destruct M as [_ [_ M]]. contradiction.
Qed.

(* importing the same object again changes nothing *)
Theorem import_idempotent : forall pname node topo r node' x, import_routing_object pname node topo = (r, node') -> r <> ImpError ->
  dget pname topo = Some x -> import_routing_object pname node' topo = (ImpNone, node').
Proof.
  intros pname node topo r node' x H R Ht. destruct (import_dup_lemma _ _ _ _ _ _ H R Ht) as [A B].
  destruct (import_routing_object pname node' topo). cbn [fst snd] in *. congruence.
Qed.

Definition ent (s : Z) (b : string) : rentry := mk_rentry s "permit" (VStr b).

Example import_case : import_routing_object "p" [("p", Some [ent 20 "n20"; ent 10 "n10"])]%string [("p", [ent 10 "t10"; ent 15 "t15"; ent 30 "t30"])]%string
  = (ImpList [ent 10 "n10"; ent 15 "t15"; ent 20 "n20"; ent 30 "t30"], [("p", Some [ent 10 "n10"; ent 15 "t15"; ent 20 "n20"; ent 30 "t30"])]%string).
Proof. reflexivity. Qed.

(* An object that needs no import is not sorted. *)
Theorem import_sorted_refuted : exists node topo l, snd (import_routing_object "p" node topo) = node
  /\ fst (import_routing_object "p" node topo) = ImpNone /\ dget "p"%string node = Some (Some l) /\ ~ StronglySorted seq_le l.
Proof.
  exists [("p", Some [ent 20 "n20"; ent 10 "n10"])]%string, [("p", [ent 10 "t10"])]%string, [ent 20 "n20"; ent 10 "n10"].
  repeat (split; [reflexivity|]). intros S. inversion S as [|? ? S1 S2]; subst. inversion S2 as [|? ? C _]; subst.
  unfold seq_le in C. cbn in C. lia.
Qed.

(* Default sequence numbers are 10, 20, ... and actions permit; configured values are kept. *)
Theorem normalized_entries : forall l i e, nth_error l i = Some e -> exists e', nth_error (normalize_routing_object l) i = Some e'
  /\ re_seq e' = match rw_seq e with Some s => s | None => (Z.of_nat i + 1) * 10 end
  /\ re_action e' = match rw_action e with Some a => a | None => "permit"%string end /\ re_body e' = rw_body e.
Proof.
  unfold normalize_routing_object.
  assert (G : forall l k i e, nth_error l i = Some e -> nth_error (normalize_from k l) i = Some (normalize_routing_entry e (k + i))).
  { induction l as [|x l IH]; intros k [|i] e H; cbn [nth_error normalize_from] in *; try discriminate.
    - injection H as ->. rewrite Nat.add_0_r. auto.
    - rewrite (IH (S k) i e H). do 2 f_equal. lia. }
  intros l i e H. exists (normalize_routing_entry e i). rewrite (G l 0%nat i e H). auto.
Qed.

(* A configured number can be equal to the default number of a following entry. *)
Theorem default_sequence_unique_refuted : exists l, ~ NoDup (map re_seq (normalize_routing_object l))
  /\ NoDup (flat_map (fun e => match rw_seq e with Some s => [s] | None => [] end) l).
Proof.
  exists [mk_raw (Some 20) None VNull; mk_raw None None VNull]. split; [|repeat constructor; intros []].
  intros N. inversion N as [|? ? C _]; subst. apply C. left. auto.
Qed.

(* ------------------------------------------------------------------ *)
(* C45: static route includes                                           *)

Section Includes.
Variable lib : dict (list sroute).

(* Full expansion of a list of static routes; includes nested at most d levels deep. *)
Inductive expansion : nat -> list sroute -> list sroute -> Prop :=
| exp_nil : forall d, expansion d [] []
| exp_plain : forall d e l r, sr_include e = None -> expansion d l r -> expansion d (e :: l) (e :: r)
| exp_include : forall d e l name inc a r, sr_include e = Some name -> dget name lib = Some inc ->
    expansion d (map (add_nexthop (sr_nexthop e)) inc) a -> expansion (S d) l r -> expansion (S d) (e :: l) (a ++ r).

Lemma expansion_plain_result : forall d l r, expansion d l r -> forall e, In e r -> sr_include e = None.
Proof.
  intros d l r H. induction H; intros e0 Hin.
  - destruct Hin.
  - destruct Hin as [<-|Hin]; auto.
  - apply in_app_or in Hin. destruct Hin; auto.
Qed.

Lemma expansion_mono : forall d l r, expansion d l r -> forall d', (d <= d')%nat -> expansion d' l r.
Proof.
  intros d l r H. induction H; intros d' L.
  - constructor.
  - constructor; auto.
  - destruct d' as [|d']; [lia|]. eapply exp_include; eauto. apply IHexpansion1. lia.
Qed.

Lemma expansion_app : forall d l1 r1 l2 r2, expansion d l1 r1 -> expansion d l2 r2 -> expansion d (l1 ++ l2) (r1 ++ r2).
Proof.
  intros d l1 r1 l2 r2 H. revert l2 r2. induction H; intros l2 r2 X2; cbn [app].
  - auto.
  - constructor; auto.
  - rewrite <- app_assoc. eapply exp_include; eauto.
Qed.

Lemma expansion_app_inv : forall d l1 l2 r, expansion d (l1 ++ l2) r -> exists r1 r2, r = r1 ++ r2 /\ expansion d l1 r1 /\ expansion d l2 r2.
Proof.
  intros d l1. induction l1 as [|e l1 IH]; intros l2 r H; cbn [app] in H.
  - exists [], r. split; auto. split; [constructor|auto].
  - inversion H as [|? ? ? r' I H'|d0 ? ? name inc a r' I D Ha H']; subst.
    + apply IH in H'. destruct H' as [r1 [r2 [-> [H1 H2]]]]. exists (e :: r1), r2. split; auto. split; [constructor; auto|auto].
    + apply IH in H'. destruct H' as [r1 [r2 [-> [H1 H2]]]]. exists (a ++ r1), r2. rewrite app_assoc. split; auto.
      split; [eapply exp_include; eauto|auto].
Qed.

Definition plain (l : list sroute) : list sroute := filter (fun e => match sr_include e with None => true | _ => false end) l.

Lemma plain_expansion : forall d l, expansion d (plain l) (plain l).
Proof.
  intros d. induction l as [|e l IH]; cbn; [constructor|]. destruct (sr_include e) eqn:E; auto. constructor; auto.
Qed.

Lemma plain_expansion_inv : forall d l r, expansion d (plain l) r -> r = plain l.
Proof.
  intros d. induction l as [|e l IH]; intros r H.
  - inversion H; auto.
  - cbn [plain filter] in *. destruct (sr_include e) eqn:E; [apply IH; auto|].
    inversion H; subst; [f_equal; apply IH; auto|congruence].
Qed.

Definition exists_in_lib (e : sroute) : Prop := forall name, sr_include e = Some name -> dget name lib <> None.

(* what a pass does *)
Lemma pass_spec : forall l ms app errs rq, include_pass lib l = (ms, app, errs, rq) ->
  map snd (filter (fun m => negb (fst m)) ms) = plain l
  /\ (errs = [] <-> forall e, In e l -> exists_in_lib e)
  /\ (rq = true <-> exists e name, In e l /\ sr_include e = Some name /\ dget name lib <> None)
  /\ (forall d a, expansion (S d) l a -> errs = [] /\ exists b, expansion d app b /\ Permutation a (plain l ++ b))
  /\ (errs = [] -> forall d b, expansion d app b -> exists a, expansion (S d) l a /\ Permutation a (plain l ++ b)).
Proof.
  induction l as [|e l IH]; intros ms app errs rq H; cbn [include_pass] in H.
  - injection H as <- <- <- <-. split; [auto|]. split; [split; [intros _ e []|auto]|]. split.
    { split; [discriminate|]. intros [e [name [[] _]]]. }
    split.
    + intros d a H. inversion H; subst. split; auto. exists []. split; [constructor|auto].
    + intros _ d b H. inversion H; subst. exists []. split; [constructor|auto].
  - destruct (include_pass lib l) as [[[ms0 app0] errs0] rq0] eqn:E.
    destruct (IH _ _ _ _ eq_refl) as [I1 [I2 [I3 [I4 I5]]]].
    destruct (sr_include e) as [name|] eqn:Inc.
    + destruct (dget name lib) as [inc|] eqn:D.
      * injection H as <- <- <- <-. split; [cbn; rewrite Inc; exact I1|]. split; [|split; [|split]].
        -- rewrite I2. split.
           ++ intros F x [<-|Hx]; [|auto]. intros nm En. assert (nm = name) by congruence. subst nm. congruence.
           ++ intros F x Hx. apply F. right. auto.
        -- split; auto. intros _. exists e, name. split; [left; auto|]. split; [auto|congruence].
        -- intros d a H. inversion H as [|? ? ? r' I H'|d0 ? ? name' inc' a' r' I D' Ha H']; subst; [congruence|].
           assert (name' = name) by congruence. subst name'. assert (inc' = inc) by congruence. subst inc'.
           destruct (I4 d r' H') as [J1 [b [J2 J3]]]. split; auto. exists (a' ++ b). split; [apply expansion_app; auto|].
           cbn [plain filter]. rewrite Inc. fold (plain l). rewrite J3.
           rewrite !app_assoc. apply Permutation_app_tail. apply Permutation_app_comm.
        -- intros Er d b Hb. apply expansion_app_inv in Hb. destruct Hb as [b1 [b2 [-> [B1 B2]]]].
           destruct (I5 Er d b2 B2) as [a [A1 A2]]. exists (b1 ++ a). split; [eapply exp_include; eauto|].
           cbn [plain filter]. rewrite Inc. fold (plain l). rewrite A2.
           rewrite !app_assoc. apply Permutation_app_tail. apply Permutation_app_comm.
      * injection H as <- <- <- <-. split; [cbn; rewrite Inc; exact I1|]. split; [|split; [|split]].
        -- split; [discriminate|]. intros F. exfalso. exact (F e (or_introl eq_refl) name Inc D).
        -- rewrite I3. split.
           ++ intros [x [nm [X1 X2]]]. exists x, nm. split; [right; auto|auto].
           ++ intros [x [nm [[<-|X1] [X2 X3]]]]; [congruence|]. exists x, nm. auto.
        -- intros d a H. inversion H; subst; congruence.
        -- discriminate.
    + injection H as <- <- <- <-. split; [cbn; rewrite Inc; f_equal; exact I1|]. split; [|split; [|split]].
      * rewrite I2. split.
        -- intros F x [<-|Hx]; [|auto]. intros nm En. congruence.
        -- intros F x Hx. apply F. right. auto.
      * rewrite I3. split.
        -- intros [x [nm [X1 X2]]]. exists x, nm. split; [right; auto|auto].
        -- intros [x [nm [[<-|X1] [X2 X3]]]]; [congruence|]. exists x, nm. auto.
      * intros d a H. inversion H as [|? ? ? r' I H'|d0 ? ? name' inc' a' r' I D' Ha H']; subst; [|congruence].
        destruct (I4 d r' H') as [J1 [b [J2 J3]]]. split; auto. exists b. split; auto.
        cbn [plain filter]. rewrite Inc. cbn [app]. apply perm_skip. exact J3.
      * intros Er d b Hb. destruct (I5 Er d b Hb) as [a [A1 A2]]. exists (e :: a). split; [constructor; auto|].
        cbn [plain filter]. rewrite Inc. cbn [app]. apply perm_skip. exact A2.
Qed.

Lemma no_includes_plain : forall l, (forall e, In e l -> sr_include e = None) -> plain l = l.
Proof.
  induction l as [|e l IH]; intros H; auto. cbn [plain filter]. rewrite (H e (or_introl eq_refl)). f_equal. apply IH. intros x Hx. apply H. right. auto.
Qed.

Lemma loop_eq : forall lim l, include_loop (S (S lim)) lib l =
  match include_pass lib l with
  | (ms, app, errs, rq) =>
      if rq then let (r, e) := include_loop (S lim) lib (map snd (filter (fun m => negb (fst m)) ms) ++ app) in (r, map IncMissing errs ++ e)
      else (l, map IncMissing errs)
  end.
Proof. intros. reflexivity. Qed.

Lemma loop_spec : forall lim l r, include_loop (S lim) lib l = (r, []) -> exists a, expansion lim l a /\ Permutation r a.
Proof.
  induction lim as [|lim IH]; intros l r H; [cbn [include_loop] in H|rewrite loop_eq in H]; destruct (include_pass lib l) as [[[ms app] errs] rq] eqn:E;
    destruct (pass_spec _ _ _ _ _ E) as [P1 [P2 [P3 [P4 P5]]]]; destruct rq.
  - injection H as _ H. destruct errs; discriminate.
  - injection H as <- H. assert (Er : errs = []) by (destruct errs; [auto|discriminate]).
    assert (Pl : plain l = l).
    { apply no_includes_plain. intros e He. destruct (sr_include e) as [nm|] eqn:I; auto. exfalso.
      assert (false = true); [|discriminate]. apply P3. exists e, nm. split; auto. split; auto. apply (proj1 P2 Er e He nm I). }
    exists l. split; [|auto]. rewrite <- Pl. apply plain_expansion.
  - destruct (include_loop (S lim) lib (map snd (filter (fun m => negb (fst m)) ms) ++ app)) as [r' e'] eqn:L.
    injection H as <- H. apply app_eq_nil in H. destruct H as [He ->].
    assert (Er : errs = []) by (destruct errs; [auto|discriminate]).
    apply IH in L. destruct L as [a [A1 A2]]. rewrite P1 in A1. apply expansion_app_inv in A1. destruct A1 as [a1 [a2 [-> [B1 B2]]]].
    apply plain_expansion_inv in B1. subst a1. destruct (P5 Er lim a2 B2) as [b [C1 C2]]. exists b. split; [auto|].
    rewrite A2. symmetry. auto.
  - injection H as <- H. assert (Er : errs = []) by (destruct errs; [auto|discriminate]).
    assert (Pl : plain l = l).
    { apply no_includes_plain. intros e He. destruct (sr_include e) as [nm|] eqn:I; auto. exfalso.
      assert (false = true); [|discriminate]. apply P3. exists e, nm. split; auto. split; auto. apply (proj1 P2 Er e He nm I). }
    exists l. split; [|auto]. rewrite <- Pl. apply plain_expansion.
Qed.

Lemma expansion_0 : forall l a, expansion 0 l a -> forall e, In e l -> sr_include e = None.
Proof. intros l a H. remember 0%nat as d. induction H; intros e0 Hin; [destruct Hin| |discriminate]. destruct Hin as [<-|Hin]; auto. Qed.

Lemma expansion_no_include : forall d l a, expansion d l a -> plain l = l -> a = l.
Proof. intros d l a H E. rewrite <- E in H. apply plain_expansion_inv in H. congruence. Qed.

Lemma loop_complete : forall lim l a, expansion lim l a -> exists r, include_loop (S lim) lib l = (r, []) /\ Permutation r a.
Proof.
  induction lim as [|lim IH]; intros l a H.
  - assert (N : forall e, In e l -> sr_include e = None) by (eapply expansion_0; eauto).
    cbn [include_loop]. destruct (include_pass lib l) as [[[ms app] errs] rq] eqn:E.
    destruct (pass_spec _ _ _ _ _ E) as [P1 [P2 [P3 _]]].
    assert (rq = false) as ->.
    { destruct rq; auto. destruct (proj1 P3 eq_refl) as [e [nm [H1 [H2 _]]]]. rewrite (N e H1) in H2. discriminate. }
    assert (errs = []) as -> by (apply P2; intros e He nm I; rewrite (N e He) in I; discriminate).
    exists l. split; auto. apply no_includes_plain in N. rewrite (expansion_no_include _ _ _ H N). auto.
  - rewrite loop_eq. destruct (include_pass lib l) as [[[ms app] errs] rq] eqn:E.
    destruct (pass_spec _ _ _ _ _ E) as [P1 [P2 [P3 [P4 P5]]]].
    destruct (P4 lim a H) as [-> [b [B1 B2]]]. destruct rq.
    + assert (X : expansion lim (plain l ++ app) (plain l ++ b)) by (apply expansion_app; [apply plain_expansion|auto]).
      apply IH in X. destruct X as [r [R1 R2]]. exists r. rewrite P1, R1. split; [auto|]. rewrite R2. symmetry. auto.
    + exists l. split; auto.
      assert (Pl : plain l = l).
      { apply no_includes_plain. intros e He. destruct (sr_include e) as [nm|] eqn:I; auto. exfalso.
        assert (false = true); [|discriminate]. apply P3. exists e, nm. split; auto. split; auto. apply (proj1 P2 eq_refl e He nm I). }
      rewrite (expansion_no_include _ _ _ H Pl). auto.
Qed.

End Includes.

(* The result of processing without errors is the full expansion: no include remains. *)
Theorem includes_expanded : forall lib l r, process_static_route_includes lib l = (r, []) ->
  (forall e, In e r -> sr_include e = None) /\ exists a, expansion lib 19 l a /\ Permutation r a.
Proof.
  intros lib l r H. destruct (loop_spec lib 19 l r H) as [a [A1 A2]]. split; [|eauto].
  intros e He. apply (expansion_plain_result lib 19 l a A1). eapply Permutation_in; eauto.
Qed.

(* It works exactly when all included lists exist and includes are nested at most 19 levels deep. *)
Theorem includes_succeed_iff : forall lib l,
  (exists r, process_static_route_includes lib l = (r, [])) <-> (exists a, expansion lib 19 l a).
Proof.
  intros lib l. split.
  - intros [r H]. destruct (loop_spec lib 19 l r H) as [a [A1 _]]. eauto.
  - intros [a H]. destruct (loop_complete lib 19 l a H) as [r [R _]]. eauto.
Qed.

(* A list that includes itself (directly or through other lists) is always reported. *)
Theorem include_loop_reported : forall lib l (bad : list sroute -> Prop),
  bad l ->
  (forall x, bad x -> exists e name inc, In e x /\ sr_include e = Some name /\ dget name lib = Some inc
                       /\ bad (map (add_nexthop (sr_nexthop e)) inc)) ->
  snd (process_static_route_includes lib l) <> [].
Proof.
  intros lib l bad B Step E.
  assert (X : exists a, expansion lib 19 l a).
  { apply includes_succeed_iff. exists (fst (process_static_route_includes lib l)). rewrite <- E. apply surjective_pairing. }
  destruct X as [a X]. clear E.
  assert (G : forall d x y, expansion lib d x y -> (forall e name inc, In e x -> sr_include e = Some name -> dget name lib = Some inc ->
     exists d' z, (d' < d)%nat /\ expansion lib d' (map (add_nexthop (sr_nexthop e)) inc) z)).
  { intros d x y H. induction H as [|d e x y Ie H IH|d e x name inc z y Ie D Hz IHz H IH]; intros e0 name0 inc0 Hin I0 D0.
    - destruct Hin.
    - destruct Hin as [<-|Hin]; [congruence|eauto].
    - destruct Hin as [<-|Hin]; [|eauto]. assert (name0 = name) by congruence. subst name0. assert (inc0 = inc) by congruence. subst inc0.
      exists d, z. split; [lia|auto]. }
  assert (F : forall d x y, bad x -> expansion lib d x y -> False).
  { induction d as [d IH] using (well_founded_induction lt_wf). intros x y Bx H.
    destruct (Step x Bx) as [e [name [inc [H1 [H2 [H3 H4]]]]]]. destruct (G _ _ _ H _ _ _ H1 H2 H3) as [d' [z [L Z]]].
    exact (IH d' L _ _ H4 Z). }
  exact (F _ _ _ B X).
Qed.

Definition inc_to (n : string) (nh : option val) : sroute := mk_sroute (Some n) nh VNull.
Definition route (nh : option val) (p : string) : sroute := mk_sroute None nh (VStr p).

Example include_case : process_static_route_includes
   [("a", [inc_to "b" None; route None "10.1.0.0/24"]); ("b", [route (Some (VDict [("vrf", VStr "red")])) "10.2.0.0/24"])]%string
   [inc_to "a" (Some (VDict [("node", VStr "r1")])); route None "10.3.0.0/24"]%string
 = ([route None "10.3.0.0/24"; route (Some (VDict [("node", VStr "r1")])) "10.1.0.0/24";
     route (Some (VDict [("vrf", VStr "red"); ("node", VStr "r1")])) "10.2.0.0/24"]%string, []).
Proof. reflexivity. Qed.

Example include_self : snd (process_static_route_includes [("a", [inc_to "a" None])]%string [inc_to "a" None]) = [IncDepth].
Proof. reflexivity. Qed.

(* Includes nested 20 levels deep are fully expanded but reported as exceeding the limit. *)
Theorem include_limit_refuted : exists lib l r, process_static_route_includes lib l = (r, [IncDepth])
  /\ (forall e, In e r -> sr_include e = None) /\ (exists a, expansion lib 20 l a).
Proof.
  set (names := ["a"; "b"; "c"; "d"; "e"; "f"; "g"; "h"; "i"; "j"; "k"; "l"; "m"; "n"; "o"; "p"; "q"; "r"; "s"]%string).
  set (nexts := ["b"; "c"; "d"; "e"; "f"; "g"; "h"; "i"; "j"; "k"; "l"; "m"; "n"; "o"; "p"; "q"; "r"; "s"; "t"]%string).
  exists (map (fun ab => (fst ab, [inc_to (snd ab) None])) (combine names nexts) ++ [("t", [route None "10.0.0.0/8"])]%string), [inc_to "a" None].
  exists [route None "10.0.0.0/8"]. split; [vm_compute; reflexivity|]. split; [intros e [<-|[]]; reflexivity|].
  exists ([route None "10.0.0.0/8"] ++ []).
  do 20 (eapply exp_include; [reflexivity|reflexivity| |constructor]; change [route None "10.0.0.0/8"] with ([route None "10.0.0.0/8"] ++ [])).
  constructor; [reflexivity|constructor].
Qed.

(* ------------------------------------------------------------------ *)
(* C46: per-address-family prefix lists                                 *)

(* The prefix of an entry in an address family: the named prefix or the pool, then the entry itself. *)
Definition own_prefix (af : paf) (e : pentry) : option string := match af with V4 => pe_v4 e | V6 => pe_v6 e end.
Definition src_prefix (af : paf) (x : pfx_data) : option string := match af with V4 => px_v4 x | V6 => px_v6 x end.

Definition entry_prefix (pools prefixes : dict pfx_data) (af : paf) (e : pentry) : option string :=
  let source := match pe_prefix e, pe_pool e with
                | Some p, _ => dget p prefixes
                | None, Some p => dget p pools
                | None, None => None
                end in
  match source with
  | Some x => match src_prefix af x with Some p => Some p | None => own_prefix af e end
  | None => own_prefix af e
  end.

Definition other_af (af : paf) : paf := match af with V4 => V6 | V6 => V4 end.

Lemma expand_entry_prefix : forall pools prefixes af e,
  own_prefix af (expand_prefix_entry pools prefixes e) = entry_prefix pools prefixes af e.
Proof.
  intros pools prefixes af e. unfold expand_prefix_entry, entry_prefix.
  destruct (pe_prefix e) as [p|]; [destruct (dget p prefixes) as [x|]|destruct (pe_pool e) as [q|]; [destruct (dget q pools) as [x|]|]];
    destruct af; cbn; auto; unfold or_opt; try destruct (px_v4 x); try destruct (px_v6 x); auto.
Qed.

Lemma expand_entry_other : forall pools prefixes e, let x := expand_prefix_entry pools prefixes e in
  pe_seq x = pe_seq e /\ pe_action x = pe_action e /\ pe_min x = pe_min e /\ pe_max x = pe_max e /\ pe_pool x = None /\ pe_prefix x = None.
Proof.
  intros pools prefixes e. unfold expand_prefix_entry.
  destruct (pe_prefix e) as [p|]; [destruct (dget p prefixes) as [x|]|destruct (pe_pool e) as [q|]; [destruct (dget q pools) as [x|]|]];
    cbn; auto 10.
Qed.

(* [e'] is the entry of the per-AF list made from entry [e] with prefix [p] *)
Definition af_entry_of (af : paf) (p : string) (e e' : pentry) : Prop :=
  pe_seq e' = pe_seq e /\ pe_action e' = pe_action e /\ own_prefix af e' = Some p /\ own_prefix (other_af af) e' = None
  /\ pe_pool e' = None /\ pe_prefix e' = None.

Definition in_range (af : paf) (m : option pminmax) : Prop :=
  match m with
  | None => True
  | Some (MVal z) => 0 <= z <= match af with V4 => 32 | V6 => 128 end
  | Some (MAf _ _) => False
  end.

(* the value given for the address family: none, one, or a dictionary without it *)
Definition value_for (af : paf) (m : option pminmax) : option Z :=
  match m with
  | Some (MVal z) => Some z
  | Some (MAf v4 v6) => match af with V4 => v4 | V6 => v6 end
  | None => None
  end.

Lemma adjust_ok : forall af m m', adjust_pfx_min_max af m = (m', false) ->
  value_for af m' = value_for af m /\ match value_for af m with Some z => in_range af (Some (MVal z)) /\ m' = Some (MVal z) | None => m' = m end.
Proof.
  intros af m m' H. unfold adjust_pfx_min_max in H.
  assert (C : forall z, (if (z <? 0) || (z >? af_bits af) then (m, true) else (Some (MVal z), false)) = (m', false) ->
     m' = Some (MVal z) /\ in_range af (Some (MVal z))).
  { intros z Hz. destruct ((z <? 0) || (z >? af_bits af)) eqn:B; [discriminate|]. apply orb_false_iff in B. destruct B as [B1 B2].
    apply Z.ltb_ge in B1. rewrite Z.gtb_ltb in B2. apply Z.ltb_ge in B2. split; [congruence|]. unfold in_range, af_bits in *. destruct af; lia. }
  destruct m as [[z|v4 v6]|].
  - apply C in H. destruct H as [-> H]. cbn [value_for]. auto.
  - cbn [value_for]. destruct (match af with V4 => v4 | V6 => v6 end) as [z|] eqn:E.
    + apply C in H. destruct H as [-> H]. cbn [value_for]. auto.
    + injection H as <-. cbn [value_for]. rewrite E. auto.
  - injection H as <-. cbn. auto.
Qed.

Lemma adjust_err : forall af m, snd (adjust_pfx_min_max af m) = true <->
  exists z, value_for af m = Some z /\ ~ in_range af (Some (MVal z)).
Proof.
  intros af m.
  assert (C : forall z, snd (if (z <? 0) || (z >? af_bits af) then (m, true) else (Some (MVal z), false)) = true <->
     ~ in_range af (Some (MVal z))).
  { intros z. destruct ((z <? 0) || (z >? af_bits af)) eqn:B; cbn [snd].
    - split; auto. intros _. apply orb_true_iff in B. rewrite Z.gtb_ltb in B. rewrite !Z.ltb_lt in B. unfold in_range, af_bits in *. destruct af; lia.
    - apply orb_false_iff in B. rewrite Z.gtb_ltb in B. rewrite !Z.ltb_ge in B. split; [discriminate|].
      intros N. exfalso. apply N. unfold in_range, af_bits in *. destruct af; lia. }
  unfold adjust_pfx_min_max. destruct m as [[z|v4 v6]|]; cbn [value_for].
  - rewrite C. split; [eauto|]. intros [z' [E N]]. congruence.
  - destruct (match af with V4 => v4 | V6 => v6 end) as [z|].
    + rewrite C. split; [eauto|]. intros [z' [E N]]. congruence.
    + cbn [snd]. split; [discriminate|]. intros [z [E _]]. discriminate.
  - cbn [snd]. split; [discriminate|]. intros [z [E _]]. discriminate.
Qed.

Definition has_prefix (pools prefixes : dict pfx_data) (af : paf) (e : pentry) : bool :=
  match entry_prefix pools prefixes af e with Some _ => true | None => false end.

Definition out_of_range (af : paf) (m : option pminmax) : Prop := exists z, value_for af m = Some z /\ ~ in_range af (Some (MVal z)).

Lemma filter_map_af : forall pools prefixes af l,
  filter (in_af af) (map (expand_prefix_entry pools prefixes) l) = map (expand_prefix_entry pools prefixes) (filter (has_prefix pools prefixes af) l).
Proof.
  intros pools prefixes af. induction l as [|e l IH]; auto. cbn [map filter].
  replace (in_af af (expand_prefix_entry pools prefixes e)) with (has_prefix pools prefixes af e).
  - destruct (has_prefix pools prefixes af e); cbn [map]; congruence.
  - unfold has_prefix. rewrite <- expand_entry_prefix. reflexivity.
Qed.

(* Per-AF lists: the entries with a prefix in the address family, in order, with values of that family; a list without
   such entries denies everything; values out of range are reported (and only them). *)
Theorem prefix_list_af : forall pools prefixes af l r n, expand_prefix_list pools prefixes af l = (r, n) ->
  let src := filter (has_prefix pools prefixes af) l in
  r <> []
  /\ (src = [] -> n = 0%nat /\ exists e, r = [e] /\ pe_action e = "deny"%string
        /\ own_prefix af e = Some (match af with V4 => "0.0.0.0/0" | V6 => "::/0" end)%string
        /\ own_prefix (other_af af) e = None /\ pe_min e = None /\ pe_max e = None)
  /\ (src <> [] -> Forall2 (fun e e' => exists p, entry_prefix pools prefixes af e = Some p /\ af_entry_of af p e e'
        /\ value_for af (pe_min e') = value_for af (pe_min e) /\ value_for af (pe_max e') = value_for af (pe_max e)) src r)
  /\ (n = 0%nat <-> forall e, In e src -> ~ out_of_range af (pe_min e) /\ ~ out_of_range af (pe_max e)).
Proof.
  intros pools prefixes af l r n H src. unfold expand_prefix_list in H. rewrite filter_map_af in H. fold src in H.
  injection H as Hr Hn. rewrite map_map in Hn.
  assert (Hs : forall e, In e src -> exists p, entry_prefix pools prefixes af e = Some p).
  { intros e He. unfold src in He. apply filter_In in He. destruct He as [_ He]. unfold has_prefix in He.
    destruct (entry_prefix pools prefixes af e); [eauto|discriminate]. }
  clearbody src. split; [|split; [|split]].
  - intros E. rewrite <- Hr in E. destruct src; cbn in E; [destruct af|]; discriminate.
  - intros E. subst src. cbn in Hr, Hn. subst r n. split; auto. destruct af; eexists; repeat (split; [reflexivity|]); reflexivity.
  - intros N. rewrite !map_map in Hr.
    assert (r = map (fun x => fst (create_pfx_af_entry af (expand_prefix_entry pools prefixes x))) src) as ->.
    { rewrite <- Hr. destruct src; [congruence|]. reflexivity. }
    clear N Hr Hn. induction src as [|e src IH]; cbn [map]; constructor.
    + destruct (Hs e (or_introl eq_refl)) as [p Hp]. exists p. split; auto.
      pose proof (expand_entry_prefix pools prefixes af e) as X. rewrite Hp in X.
      destruct (expand_entry_other pools prefixes e) as [E1 [E2 [E3 [E4 [E5 E6]]]]].
      set (x := expand_prefix_entry pools prefixes e) in *. unfold create_pfx_af_entry.
      destruct (adjust_pfx_min_max af (pe_min x)) as [mn b1] eqn:A1. destruct (adjust_pfx_min_max af (pe_max x)) as [mx b2] eqn:A2.
      cbn [fst]. unfold af_entry_of. cbn [pe_seq pe_action pe_pool pe_prefix pe_min pe_max own_prefix].
      assert (V : forall m m' b, adjust_pfx_min_max af m = (m', b) -> value_for af m' = value_for af m).
      { intros m m' [|] A; [|apply adjust_ok in A; tauto].
        unfold adjust_pfx_min_max in A. destruct m as [[z|v4 v6]|]; [| |discriminate].
        - destruct ((z <? 0) || (z >? af_bits af)); [congruence|discriminate].
        - destruct (match af with V4 => v4 | V6 => v6 end) as [z|]; [|discriminate].
          destruct ((z <? 0) || (z >? af_bits af)); [congruence|discriminate]. }
      rewrite (V _ _ _ A1), (V _ _ _ A2), E3, E4.
      destruct af; cbn [own_prefix other_af pe_v4 pe_v6] in *; auto 20.
    + apply IH. intros e' He'. apply Hs. right. auto.
  - rewrite <- Hn. clear Hr Hn Hs.
    assert (Q : forall e, snd (create_pfx_af_entry af (expand_prefix_entry pools prefixes e)) = 0%nat
                <-> ~ out_of_range af (pe_min e) /\ ~ out_of_range af (pe_max e)).
    { intros e. destruct (expand_entry_other pools prefixes e) as [E1 [E2 [E3 [E4 [E5 E6]]]]]. unfold create_pfx_af_entry.
      rewrite E3, E4. unfold out_of_range. rewrite <- !adjust_err.
      destruct (adjust_pfx_min_max af (pe_min e)) as [mn b1]. destruct (adjust_pfx_min_max af (pe_max e)) as [mx b2]. cbn [snd].
      destruct b1, b2; cbn; split; intuition congruence. }
    induction src as [|e src IH]; cbn [map list_sum fold_right]; [split; [intros _ e []|auto]|].
    change (fold_right Nat.add 0%nat (map (fun x => snd (create_pfx_af_entry af (expand_prefix_entry pools prefixes x))) src))
      with (list_sum (map (fun x => snd (create_pfx_af_entry af (expand_prefix_entry pools prefixes x))) src)).
    rewrite Nat.eq_add_0, IH, Q. split.
    + intros [A B] x [<-|Hx]; auto.
    + intros A. split; [apply A; left; auto|]. intros x Hx. apply A. right. auto.
Qed.

(* Without errors, minimum and maximum lengths are in range when they are given as a value or for this address family. *)
Theorem prefix_list_range : forall pools prefixes af l r, expand_prefix_list pools prefixes af l = (r, 0%nat) ->
  (forall e, In e l -> (pe_min e <> None -> value_for af (pe_min e) <> None) /\ (pe_max e <> None -> value_for af (pe_max e) <> None)) ->
  forall e, In e r -> in_range af (pe_min e) /\ in_range af (pe_max e).
Proof.
  intros pools prefixes af l r H V e He. unfold expand_prefix_list in H. rewrite filter_map_af in H.
  set (src := filter (has_prefix pools prefixes af) l) in *. injection H as Hr Hn.
  assert (Sub : forall x, In x src -> In x l) by (intros x Hx; unfold src in Hx; apply filter_In in Hx; tauto).
  clearbody src. rewrite !map_map in *.
  destruct src as [|e0 src0]; [cbn in Hr; subst r; destruct He as [<-|[]]; destruct af; cbn; auto|].
  set (s := e0 :: src0) in *.
  assert (r = map (fun x => fst (create_pfx_af_entry af (expand_prefix_entry pools prefixes x))) s) as -> by (rewrite <- Hr; reflexivity).
  apply in_map_iff in He. destruct He as [x [<- Hx]].
  assert (Z0 : snd (create_pfx_af_entry af (expand_prefix_entry pools prefixes x)) = 0%nat).
  { clear - Hn Hx. induction s as [|y s IH]; [destruct Hx|]. cbn [map list_sum fold_right] in Hn. apply Nat.eq_add_0 in Hn.
    destruct Hn as [H1 H2]. destruct Hx as [<-|Hx]; auto. }
  destruct (expand_entry_other pools prefixes x) as [E1 [E2 [E3 [E4 [E5 E6]]]]]. unfold create_pfx_af_entry in *. rewrite E3, E4 in *.
  destruct (V x (Sub x Hx)) as [V1 V2].
  assert (A : forall m m', (m <> None -> value_for af m <> None) -> adjust_pfx_min_max af m = (m', false) -> in_range af m').
  { intros m m' Vm A. apply adjust_ok in A. destruct A as [_ A]. destruct (value_for af m) as [z|] eqn:Vz.
    - destruct A as [A ->]. auto.
    - subst m'. destruct m; [|exact I]. exfalso. apply Vm; congruence. }
  destruct (adjust_pfx_min_max af (pe_min x)) as [mn b1] eqn:A1. destruct (adjust_pfx_min_max af (pe_max x)) as [mx b2] eqn:A2.
  cbn [fst snd pe_min pe_max] in *. destruct b1, b2; try discriminate. eauto.
Qed.

Definition px (s : Z) (v4 v6 pool : option string) (mn : option pminmax) : pentry := mk_pentry s "permit" v4 v6 pool None mn None.

Example prefix_list_case :
  expand_prefix_list [("lan", mk_pfx (Some "172.16.0.0/16") None)]%string [] V4
    [px 10 (Some "10.0.0.0/8") None None (Some (MAf (Some 24) (Some 64))); px 20 None (Some "2001:db8::/32") None None; px 30 None None (Some "lan") None]%string
  = ([px 10 (Some "10.0.0.0/8") None None (Some (MVal 24)); px 30 (Some "172.16.0.0/16") None None None]%string, 0%nat).
Proof. reflexivity. Qed.

(* A minimum length given only for IPv4 stays a dictionary in the IPv6 list of a dual-stack entry. *)
Theorem prefix_min_max_refuted : exists l r e, expand_prefix_list [] [] V6 l = (r, 0%nat) /\ In e r
  /\ pe_min e = Some (MAf (Some 24) None) /\ ~ in_range V6 (pe_min e).
Proof.
  exists [px 10 (Some "10.0.0.0/8") (Some "2001:db8::/32") None (Some (MAf (Some 24) None))]%string.
  eexists. eexists. split; [reflexivity|]. split; [left; reflexivity|]. split; [reflexivity|]. intros [].
Qed.

(* ------------------------------------------------------------------ *)
(* C71: AS path list numbers                                            *)

Definition aspath_inv (nums : dict Z) : Prop := NoDup (map fst nums) /\ NoDup (map snd nums) /\ Forall (fun z => 1 <= z) (map snd nums).

Lemma max_ge : forall l a x, In x l \/ x = a -> x <= fold_left Z.max l a.
Proof.
  induction l as [|y l IH]; intros a x [H|H]; cbn [fold_left].
  - destruct H.
  - lia.
  - destruct H as [<-|H]; [|apply IH; auto]. specialize (IH (Z.max a y) (Z.max a y) (or_intror eq_refl)). lia.
  - subst. specialize (IH (Z.max a y) (Z.max a y) (or_intror eq_refl)). lia.
Qed.

Lemma dset_new_app : forall (A : Type) k (v : A) d, dget k d = None -> dset k v d = d ++ [(k, v)].
Proof.
  induction d as [|[k' v'] d IH]; intros H; cbn [dset dget app] in *; auto.
  destruct (String.eqb k k'); [discriminate|]. f_equal. auto.
Qed.

(* Every list gets a number that no other list has, whatever the order of calls; numbers never change. *)
Theorem aspath_numbers : forall names nums, aspath_inv nums ->
  let r := fold_left (fun d n => number_aspath_acl n d) names nums in
  aspath_inv r /\ (forall k z, dget k nums = Some z -> dget k r = Some z) /\ (forall k, dget k r <> None <-> dget k nums <> None \/ In k names).
Proof.
  induction names as [|n names IH]; intros nums Inv r.
  - subst r. cbn [fold_left]. split; auto. split; auto. intros k. cbn [In]. tauto.
  - cbn [fold_left] in r.
    assert (S : aspath_inv (number_aspath_acl n nums) /\ (forall k z, dget k nums = Some z -> dget k (number_aspath_acl n nums) = Some z)
       /\ (forall k, dget k (number_aspath_acl n nums) <> None <-> dget k nums <> None \/ k = n)).
    { unfold number_aspath_acl. destruct (dget n nums) as [z|] eqn:D.
      - split; auto. split; auto. intros k. split; auto. intros [H| ->]; auto. congruence.
      - destruct Inv as [I1 [I2 I3]]. set (z := fold_left Z.max (map snd nums) 0 + 1).
        assert (Zge : forall x, In x (map snd nums) -> x < z) by (intros x Hx; unfold z; pose proof (max_ge (map snd nums) 0 x (or_introl Hx)); lia).
        assert (1 <= z) by (unfold z; pose proof (max_ge (map snd nums) 0 0 (or_intror eq_refl)); lia).
        split; [|split].
        + unfold aspath_inv. rewrite dset_new_app by auto. rewrite !map_app. cbn [map]. split; [|split].
          * apply dget_None in D.
            eapply Permutation_NoDup; [apply Permutation_cons_append|]. constructor; auto.
          * eapply Permutation_NoDup; [apply Permutation_cons_append|]. constructor; auto. intros C. apply Zge in C. cbn in C. lia.
          * apply Forall_app. split; auto.
        + intros k x Hk. destruct (String.eqb_spec k n) as [E|N]; [subst; congruence|]. rewrite dget_dset_other; auto.
        + intros k. destruct (String.eqb_spec k n) as [E|N].
          * rewrite E, dget_dset_same. split; auto. intros _. congruence.
          * rewrite dget_dset_other by auto. tauto. }
    destruct S as [S1 [S2 S3]]. destruct (IH _ S1) as [R1 [R2 R3]]. fold r in R1, R2, R3. split; auto. split; [eauto|].
    intros k. rewrite R3, S3. cbn [In]. split; intros H; intuition congruence.
Qed.

Example aspath_case : fold_left (fun d n => number_aspath_acl n d) ["a"; "b"; "a"; "c"]%string [] = [("a", 1); ("b", 2); ("c", 3)]%string.
Proof. reflexivity. Qed.

(* ------------------------------------------------------------------ *)
(* C72: route imports in VRFs                                           *)

Lemma remove_imports_other : forall rps proto v v' e k, remove_imports rps proto v = (v', e) -> ~ In k rps -> dget k (iv_protos v') = dget k (iv_protos v).
Proof.
  induction rps as [|rp rps IH]; intros proto v v' e k H N; cbn [remove_imports] in H.
  - injection H as <- _. auto.
  - assert (N1 : k <> rp) by (intros ->; apply N; left; auto). assert (N2 : ~ In k rps) by (intros C; apply N; right; auto).
    destruct (dget rp (iv_protos v)) as [[imp|]|] eqn:D; [|eauto|eauto]. destruct (dget proto imp) as [[|]|] eqn:P.
    + apply IH with (k := k) in H; auto. rewrite H. cbn [iv_protos]. apply dget_dset_other. auto.
    + destruct (remove_imports rps proto v) as [v0 e0] eqn:R. injection H as <- _. eauto.
    + eauto.
Qed.

(* Imports of a protocol after its removal: for every protocol that can import routes, automatic imports of the removed
   protocol are gone, explicit imports remain and are reported, other imports do not change. *)
Theorem vrf_imports_removed : forall rps proto v v' e, NoDup rps -> remove_imports rps proto v = (v', e) ->
  (forall rp, In rp rps -> dget rp (iv_protos v') =
      match dget rp (iv_protos v) with
      | Some (Some imp) => Some (Some (match dget proto imp with Some true => dpop proto imp | _ => imp end))
      | x => x
      end)
  /\ (forall x, In x e <-> exists rp imp, x = ImportInactive rp /\ In rp rps /\ dget rp (iv_protos v) = Some (Some imp) /\ dget proto imp = Some false).
Proof.
  induction rps as [|rp rps IH]; intros proto v v' e ND H; cbn [remove_imports] in H.
  - injection H as <- <-. split; [intros rp []|]. intros x. cbn [In]. split; [tauto|]. intros [rp [imp [_ [[] _]]]].
  - inversion ND as [|? ? N ND']; subst.
    assert (Skip : forall v0 e0, remove_imports rps proto v = (v0, e0) ->
      match dget rp (iv_protos v) with Some (Some imp) => dget proto imp = None | _ => True end ->
      (forall rp', In rp' (rp :: rps) -> dget rp' (iv_protos v0) =
         match dget rp' (iv_protos v) with
         | Some (Some imp) => Some (Some (match dget proto imp with Some true => dpop proto imp | _ => imp end)) | x => x end)
      /\ (forall x, In x e0 <-> exists rp' imp, x = ImportInactive rp' /\ In rp' (rp :: rps) /\ dget rp' (iv_protos v) = Some (Some imp) /\ dget proto imp = Some false)).
    { intros v0 e0 R M. pose proof (remove_imports_other _ _ _ _ _ rp R N) as O. destruct (IH _ _ _ _ ND' R) as [I1 I2]. split.
      - intros rp' [<-|Hin]; [|auto]. rewrite O. destruct (dget rp (iv_protos v)) as [[imp|]|]; auto. rewrite M. auto.
      - intros x. rewrite I2. split.
        + intros [rp' [imp [A [B C]]]]. exists rp', imp. split; auto. split; [right; auto|auto].
        + intros [rp' [imp [A [[<-|B] [C D]]]]]; [rewrite C in M; congruence|]. exists rp', imp. auto. }
    destruct (dget rp (iv_protos v)) as [[imp|]|] eqn:D; [|apply (Skip _ _ H); auto|apply (Skip _ _ H); auto].
    destruct (dget proto imp) as [[|]|] eqn:P; [clear Skip|clear Skip|apply (Skip _ _ H); auto].
    + pose proof (remove_imports_other _ _ _ _ _ rp H N) as O. cbn [iv_protos] in O. rewrite dget_dset_same in O.
      destruct (IH _ _ _ _ ND' H) as [I1 I2]. cbn [iv_protos] in *. split.
      * intros rp' [<-|Hin].
        -- rewrite O, D, P. auto.
        -- rewrite (I1 _ Hin). rewrite dget_dset_other; auto. intros ->. contradiction.
      * intros x. rewrite I2. split.
        -- intros [rp' [imp' [A [B [C E]]]]]. exists rp', imp'. assert (rp' <> rp) by (intros ->; contradiction).
           rewrite dget_dset_other in C by auto. split; auto. split; [right; auto|auto].
        -- intros [rp' [imp' [A [[<-|B] [C E]]]]]; [congruence|]. exists rp', imp'. assert (rp' <> rp) by (intros ->; contradiction).
           rewrite dget_dset_other by auto. auto.
    + destruct (remove_imports rps proto v) as [v0 e0] eqn:R. injection H as <- <-.
      pose proof (remove_imports_other _ _ _ _ _ rp R N) as O. destruct (IH _ _ _ _ ND' R) as [I1 I2]. split.
      * intros rp' [<-|Hin]; [|auto]. rewrite O, D, P. auto.
      * intros x. cbn [In]. rewrite I2. split.
        -- intros [<-|[rp' [imp' [A [B C]]]]]; [exists rp, imp; auto|]. exists rp', imp'. auto.
        -- intros [rp' [imp' [A [[<-|B] [C E]]]]]; [left; congruence|]. right. exists rp', imp'. auto.
Qed.

Lemma fold_cond_dset : forall (c : string -> bool) (f : string -> string) l (d : imports) k, NoDup (map fst d) ->
  let r := fold_left (fun d s => if c s then dset (f s) true d else d) l d in
  NoDup (map fst r) /\ (dget k r = if existsb (fun s => c s && String.eqb (f s) k) l then Some true else dget k d).
Proof.
  intros c f. induction l as [|s l IH]; intros d k ND r; subst r; cbn [fold_left existsb]; [auto|].
  destruct (c s) eqn:C; cbn [andb].
  - specialize (IH (dset (f s) true d) k (NoDup_dset _ _ _ ND)). cbn zeta in IH. destruct IH as [I1 I2]. split; auto. rewrite I2.
    destruct (existsb (fun s0 => c s0 && String.eqb (f s0) k) l) eqn:X; [rewrite orb_true_r; auto|]. rewrite orb_false_r.
    destruct (String.eqb_spec (f s) k) as [E|N]; [rewrite E; apply dget_dset_same|apply dget_dset_other; auto].
  - cbn [orb]. apply IH. auto.
Qed.

(* Default imports: exactly the supported sources that are used in the VRF (for BGP also the ones used by the node). *)
Theorem vrf_default_imports : forall bgp_as node_protos proto v vrf_list s,
  (dget (sp_name s) (default_imports bgp_as node_protos proto v vrf_list) <> None <->
   exists s', sp_name s' = sp_name s /\ In s' vrf_list /\
   (In s' ["connected"; "static"]%string \/ dget s' (iv_protos v) <> None \/ (s' = "bgp"%string /\ bgp_as = true)
    \/ (proto = "bgp"%string /\ In s' node_protos))).
Proof.
  intros bgp_as node_protos proto v vrf_list s. unfold default_imports.
  destruct (fold_cond_dset (fun s => is_vrf_protocol bgp_as v s || (String.eqb proto "bgp" && memS s node_protos)) sp_name vrf_list [] (sp_name s)) as [_ G];
    [constructor|]. cbn zeta in G. rewrite G. clear G. cbn [dget].
  set (X := existsb _ _). assert (E : X = true <-> exists s', sp_name s' = sp_name s /\ In s' vrf_list /\
   (In s' ["connected"; "static"]%string \/ dget s' (iv_protos v) <> None \/ (s' = "bgp"%string /\ bgp_as = true)
    \/ (proto = "bgp"%string /\ In s' node_protos))).
  { unfold X. rewrite existsb_exists. split; intros [s' H]; exists s'.
    - destruct H as [H1 H2]. apply andb_true_iff in H2. destruct H2 as [H2 H3]. apply String.eqb_eq in H3. split; auto. split; auto.
      apply orb_true_iff in H2. destruct H2 as [H2|H2].
      + unfold is_vrf_protocol in H2. rewrite !orb_true_iff in H2. destruct H2 as [[[H2|H2]|H2]|H2].
        * apply String.eqb_eq in H2. subst. left. left. auto.
        * apply String.eqb_eq in H2. subst. left. right. left. auto.
        * right. left. unfold dmem in H2. destruct (dget s' (iv_protos v)); [congruence|discriminate].
        * apply andb_true_iff in H2. destruct H2 as [H2 H4]. apply String.eqb_eq in H2. auto.
      + apply andb_true_iff in H2. destruct H2 as [H2 H4]. apply String.eqb_eq in H2. apply memS_true in H4. auto.
    - destruct H as [H1 [H2 H3]]. split; auto. apply andb_true_iff. split; [|apply String.eqb_eq; auto].
      unfold is_vrf_protocol. rewrite !orb_true_iff, !andb_true_iff, !String.eqb_eq, memS_true.
      destruct H3 as [[<-|[<-|[]]]|[H3|[H3|H3]]]; auto 10.
      left. left. right. unfold dmem. destruct (dget s' (iv_protos v)); congruence. }
  rewrite <- E. destruct X; split; intros; congruence.
Qed.

Definition imports_of (proto : string) (v : ivrf) : option imports :=
  match dget proto (iv_protos v) with Some (Some i) => Some i | _ => None end.

Lemma F2_same : forall (A : Type) (P : A -> A -> Prop) l, (forall x, In x l -> P x x) -> Forall2 P l l.
Proof. induction l as [|x l IH]; intros H; constructor; [apply H; left; auto|]. apply IH. intros y Hy. apply H. right. auto. Qed.

(* On a device with VRF-aware imports nothing is reported: imports configured in a VRF are kept, a VRF using the
   protocol without configured imports gets the default ones, nothing else changes. *)
Theorem vrf_imports_aware : forall bgp_as node_protos proto vrf_list seen vs vs' e,
  process_vrf_imports bgp_as node_protos proto (Some true) vrf_list seen vs = (vs', e) ->
  e = [] /\ Forall2 (fun kv kv' => fst kv' = fst kv
     /\ imports_of proto (snd kv') = match imports_of proto (snd kv) with
          | Some i => Some i
          | None => if is_vrf_protocol bgp_as (snd kv) proto
                    then match default_imports bgp_as node_protos proto (snd kv) vrf_list with [] => None | d => Some d end
                    else None
          end
     /\ forall k, k <> proto -> dget k (iv_protos (snd kv')) = dget k (iv_protos (snd kv))) vs vs'.
Proof.
  intros bgp_as node_protos proto vrf_list seen vs. revert seen. induction vs as [|[k v] vs IH]; intros seen vs' e H; cbn [process_vrf_imports] in H.
  - injection H as <- <-. split; auto. 
  - destruct (is_vrf_protocol bgp_as v proto) eqn:P; cbn [negb] in H.
    + destruct (dget proto (iv_protos v)) as [[i|]|] eqn:D;
        destruct (process_vrf_imports bgp_as node_protos proto (Some true) vrf_list _ vs) as [r' e'] eqn:R in H;
        injection H as <- <-; destruct (IH _ _ _ R) as [-> F]; (split; [auto|]); constructor; auto; cbn [fst snd]; (split; [auto|]);
        unfold imports_of; rewrite ?D; cbn [iv_protos]; rewrite ?dget_dset_same, ?P.
      * split; auto.
      * split; [destruct (default_imports bgp_as node_protos proto v vrf_list); auto|]. intros k' N. apply dget_dset_other. auto.
      * split; [destruct (default_imports bgp_as node_protos proto v vrf_list); auto|]. intros k' N. apply dget_dset_other. auto.
    + destruct (process_vrf_imports bgp_as node_protos proto (Some true) vrf_list seen vs) as [r' e'] eqn:R.
      injection H as <- <-. destruct (IH _ _ _ R) as [-> F]. split; [auto|]. constructor; auto. cbn [fst snd]. split; auto. split; auto.
      rewrite P. unfold imports_of. destruct (dget proto (iv_protos v)) as [[i|]|]; auto.
Qed.

(* Without VRF-aware imports no import is added; nothing fails when no VRF asks for one. *)
Theorem vrf_imports_not_aware : forall bgp_as node_protos proto device vrf_list seen vs vs' e, device <> Some true ->
  process_vrf_imports bgp_as node_protos proto device vrf_list seen vs = (vs', e) ->
  Forall2 (fun kv kv' => fst kv' = fst kv /\ forall p, imports_of p (snd kv') = imports_of p (snd kv)) vs vs'
  /\ (e = [] <-> forall k v, In (k, v) vs -> imports_of proto v = None).
Proof.
  intros bgp_as node_protos proto device vrf_list seen vs. induction vs as [|[k v] vs IH]; intros vs' e ND H; cbn [process_vrf_imports] in H.
  - injection H as <- <-. split; [constructor|]. split; [intros _ k v []|auto].
  - assert (A : match device with Some b => b | None => false end = false) by (destruct device as [[|]|]; congruence).
    rewrite A in H. clear A.
    assert (Keep : forall v' r' e', (process_vrf_imports bgp_as node_protos proto device vrf_list seen vs) = (r', e') ->
        imports_of proto v = None -> (forall p, imports_of p v' = imports_of p v) ->
        Forall2 (fun kv kv' => fst kv' = fst kv /\ forall p, imports_of p (snd kv') = imports_of p (snd kv)) ((k, v) :: vs) ((k, v') :: r')
        /\ (e' = [] <-> forall k0 v0, In (k0, v0) ((k, v) :: vs) -> imports_of proto v0 = None)).
    { intros v' r' e' R N Hv. destruct (IH _ _ ND R) as [F G]. split; [constructor; auto|]. rewrite G. split.
      - intros Q k0 v0 [E|Hin]; [injection E as <- <-; auto|eauto].
      - intros Q k0 v0 Hin. apply (Q k0 v0). right. auto. }
    destruct (is_vrf_protocol bgp_as v proto) eqn:P; cbn [negb] in H.
    + destruct (dget proto (iv_protos v)) as [[i|]|] eqn:D.
      * assert (I : imports_of proto v = Some i) by (unfold imports_of; rewrite D; auto). destruct seen.
        -- destruct (process_vrf_imports bgp_as node_protos proto device vrf_list true vs) as [r' e'] eqn:R. injection H as <- <-.
           destruct (IH _ _ ND eq_refl) as [F G]. split; [constructor; auto|]. split; [discriminate|].
           intros Q. specialize (Q k v (or_introl eq_refl)). congruence.
        -- injection H as <- <-. split; [apply F2_same; auto|]. split; [discriminate|].
           intros Q. specialize (Q k v (or_introl eq_refl)). congruence.
      * destruct (process_vrf_imports bgp_as node_protos proto device vrf_list seen vs) as [r' e'] eqn:R. injection H as <- <-.
        apply (Keep _ _ _ eq_refl); [unfold imports_of; rewrite D; auto|].
        intros p. unfold imports_of. cbn [iv_protos]. destruct (String.eqb_spec p proto) as [E|N];
          [rewrite E, dget_dset_same, D; auto|rewrite dget_dset_other; auto].
      * destruct (process_vrf_imports bgp_as node_protos proto device vrf_list seen vs) as [r' e'] eqn:R. injection H as <- <-.
        apply (Keep _ _ _ eq_refl); [unfold imports_of; rewrite D; auto|].
        intros p. unfold imports_of. cbn [iv_protos]. destruct (String.eqb_spec p proto) as [E|N];
          [rewrite E, dget_dset_same, D; auto|rewrite dget_dset_other; auto].
    + destruct (process_vrf_imports bgp_as node_protos proto device vrf_list seen vs) as [r' e'] eqn:R. injection H as <- <-.
      apply (Keep _ _ _ eq_refl); auto. unfold imports_of, is_vrf_protocol, dmem in *.
      destruct (dget proto (iv_protos v)) as [[i|]|]; auto. rewrite orb_true_r in P. discriminate.
Qed.

(* A protocol that turns out to be inactive in a VRF is no longer imported into any other protocol of that VRF
   unless an error is reported ... *)
Theorem inactive_protocol_not_imported : forall proto v v', deactivate proto v = (v', []) ->
  dget proto (iv_protos v') = None /\
  forall rp imp, In rp ["bgp"; "ospf"; "isis"; "ripv2"; "eigrp"]%string -> dget rp (iv_protos v') = Some (Some imp) -> dget proto imp = None.
Proof.
  intros proto v v' H. unfold deactivate in H. destruct (remove_imports routing_protocols proto v) as [v0 e] eqn:R. injection H as <- ->.
  cbn [iv_protos]. split; [apply dget_dpop_same|]. intros rp imp Hin D.
  assert (ND : NoDup routing_protocols) by (repeat constructor; cbn; intuition discriminate).
  destruct (vrf_imports_removed _ _ _ _ _ ND R) as [I1 I2].
  destruct (String.eqb_spec rp proto) as [E|N].
  { rewrite E, dget_dpop_same in D. discriminate. }
  rewrite dget_dpop_other in D by auto. rewrite (I1 rp Hin) in D. destruct (dget rp (iv_protos v)) as [[imp0|]|] eqn:D0; try discriminate.
  injection D as <-. destruct (dget proto imp0) as [[|]|] eqn:P; auto; [apply dget_dpop_same|].
  exfalso. apply (proj2 (I2 (ImportInactive rp))). exists rp, imp0. auto.
Qed.

Example vrf_import_case :
  let v := mk_ivrf [("ospf", None); ("bgp", None)]%string in
  let r := process_vrf_imports true [] "bgp" (Some true) ["connected"; "ospf"; "isis"]%string false [("red", v)]%string in
  r = ([("red", mk_ivrf [("ospf", None); ("bgp", Some [("connected", true); ("ospf", true)])])]%string, [])
  /\ deactivate "ospf" (mk_ivrf [("ospf", None); ("bgp", Some [("connected", true); ("ospf", true)])]%string)
     = (mk_ivrf [("bgp", Some [("connected", true)])]%string, []).
Proof. split; reflexivity. Qed.

(* ... but an automatic import of RIP is stored as 'rip' and stays in place when RIP turns out to be inactive. *)
Theorem inactive_rip_refuted : exists v vrfs v1 v2, process_vrf_imports true [] "bgp" (Some true) ["connected"; "ripv2"]%string false [("red", v)]%string = (vrfs, [])
  /\ dget "red"%string vrfs = Some v1 /\ deactivate "ripv2" v1 = (v2, []) /\ dget "ripv2"%string (iv_protos v2) = None
  /\ exists imp, dget "bgp"%string (iv_protos v2) = Some (Some imp) /\ dget (sp_name "ripv2") imp = Some true.
Proof.
  exists (mk_ivrf [("ripv2", None)]%string). eexists. eexists. eexists. repeat (split; [reflexivity|]). eexists. split; reflexivity.
Qed.

(* An import into a VRF instance of a protocol without VRF-aware import support crashes instead of being reported. *)
Theorem import_not_vrf_aware_refuted : exists v, snd (process_vrf_imports true [] "ospf" (Some false) [] false [("red", v)]%string) = [ImportCrash].
Proof. exists (mk_ivrf [("ospf", Some [("bgp", false)])]%string). reflexivity. Qed.

Print Assumptions import_merged.
Print Assumptions import_copied.
Print Assumptions import_idempotent.
Print Assumptions import_sorted_refuted.
Print Assumptions normalized_entries.
Print Assumptions default_sequence_unique_refuted.
Print Assumptions includes_expanded.
Print Assumptions includes_succeed_iff.
Print Assumptions include_loop_reported.
Print Assumptions include_limit_refuted.
Print Assumptions prefix_list_af.
Print Assumptions prefix_list_range.
Print Assumptions prefix_min_max_refuted.
Print Assumptions aspath_numbers.
Print Assumptions vrf_imports_removed.
Print Assumptions vrf_default_imports.
Print Assumptions vrf_imports_aware.
Print Assumptions vrf_imports_not_aware.
Print Assumptions inactive_protocol_not_imported.
Print Assumptions inactive_rip_refuted.
Print Assumptions import_not_vrf_aware_refuted.
