(* Properties C153 and C155: precedence of defaults, environment variables and command line arguments. *)
From Coq Require Import String Ascii ZArith Lia Bool List.
From Verif Require Import Base Box_Model Box_Props Text_Model Text_Props Sort_Model Defs_Model.
Import ListNotations.
Local Open Scope string_scope.
Local Open Scope list_scope.

(* ------------------------------------------------------------------ *)
(* Specification                                                        *)

(* neither path leads through the other one *)
Definition apart (p q : list string) : Prop := (forall r, q <> p ++ r) /\ forall r, p <> q ++ r.

(* all files with defaults that are used, in order *)
Definition used_files (rd : string -> option (dict val)) (abs : string -> string) (l : list string) : list string :=
  filter (fun f => match rd f with Some (_ :: _) => true | _ => false end)
         (map (fun f => if prefix "package:" f then f else abs f) l).

Definition contents (rd : string -> option (dict val)) (f : string) : val :=
  match rd f with Some d => VDict d | None => VDict [] end.

(* ------------------------------------------------------------------ *)
(* Setting values                                                       *)

Lemma apart_cons : forall k p q, apart (k :: p) (k :: q) <-> apart p q.
Proof.
  intros k p q. unfold apart. split; intros [A B]; split; intros r E.
  - apply (A r). rewrite E. reflexivity.
  - apply (B r). rewrite E. reflexivity.
  - cbn [app] in E. injection E as E. exact (A r E).
  - cbn [app] in E. injection E as E. exact (B r E).
Qed.

Lemma apart_head : forall k h p q, k <> h -> apart (k :: p) (h :: q).
Proof. intros k h p q N. split; intros r E; cbn [app] in E; injection E as E1 E2; congruence. Qed.

Lemma apart_sym : forall p q, apart p q -> apart q p.
Proof. intros p q [A B]. split; assumption. Qed.

Lemma set_path_same : forall p v t t', set_path p v t = Some t' -> lookup p t' = Some v.
Proof.
  induction p as [|k p IH]; intros v t t' H; cbn [set_path lookup] in H |- *; [injection H as H; subst; reflexivity|].
  destruct t as [| | | | |d]; try discriminate H.
  destruct (set_path p v (match dget k d with Some x => x | None => VDict [] end)) as [x|] eqn:E; [|discriminate H].
  injection H as H. subst t'. rewrite dget_dset_same. exact (IH _ _ _ E).
Qed.

Lemma lookup_empty : forall k q, lookup (k :: q) (VDict []) = None.
Proof. reflexivity. Qed.

Lemma set_path_other : forall p v t t' q, set_path p v t = Some t' -> apart p q -> lookup q t' = lookup q t.
Proof.
  induction p as [|k p IH]; intros v t t' q H A.
  - exfalso. destruct A as [A _]. exact (A q eq_refl).
  - destruct q as [|h q]; [exfalso; destruct A as [_ A]; exact (A (k :: p) eq_refl)|].
    cbn [set_path] in H. destruct t as [| | | | |d]; try discriminate H.
    destruct (set_path p v (match dget k d with Some x => x | None => VDict [] end)) as [x|] eqn:E; [|discriminate H].
    injection H as H. subst t'. cbn [lookup].
    destruct (String.eqb_spec h k) as [Q|Q].
    + subst h. rewrite dget_dset_same. apply apart_cons in A. rewrite (IH _ _ _ _ E A).
      destruct (dget k d) as [y|]; [reflexivity|]. destruct q as [|h q]; [|reflexivity].
      exfalso. destruct A as [_ A]. exact (A p eq_refl).
    + rewrite dget_dset_other by exact Q. reflexivity.
Qed.

(* a value can be set unless something that is not a dictionary is in the way *)
Lemma set_path_ok : forall p v t,
  (exists t', set_path p v t = Some t') <->
  forall q r x, p = q ++ r -> r <> [] -> lookup q t = Some x -> is_dict x = true.
Proof.
  induction p as [|k p IH]; intros v t; cbn [set_path].
  - split; [|intros _; exists v; reflexivity]. intros _ q r x E NE _. destruct q; destruct r; try discriminate E. exfalso; apply NE; reflexivity.
  - destruct t as [| | | | |d];
      try (split; [intros [t' Q]; discriminate Q|intros Q; discriminate (Q [] (k :: p) _ eq_refl ltac:(discriminate) eq_refl)]).
    specialize (IH v (match dget k d with Some x => x | None => VDict [] end)). split.
    + intros [t' H]. destruct (set_path p v (match dget k d with Some x => x | None => VDict [] end)) as [x|] eqn:E; [|discriminate H].
      pose proof (proj1 IH (ex_intro _ x eq_refl)) as A.
      intros q r y EP NE L. destruct q as [|h q].
      * cbn [lookup] in L. injection L as L. subst y. reflexivity.
      * cbn [app] in EP. injection EP as E1 E2. subst h. cbn [lookup] in L.
        destruct (dget k d) as [z|]; [|discriminate L]. exact (A _ _ _ E2 NE L).
    + intros A. destruct (proj2 IH) as [x E].
      { intros q r y EP NE L. destruct (dget k d) as [z|] eqn:D.
        - apply (A (k :: q) r y); [cbn [app]; rewrite EP; reflexivity|exact NE|]. cbn [lookup]. rewrite D. exact L.
        - destruct q as [|h q]; [|discriminate L]. cbn [lookup] in L. injection L as L. subst y. reflexivity. }
      rewrite E. eexists; reflexivity.
Qed.

(* ------------------------------------------------------------------ *)
(* C153: sources of defaults                                            *)

(* The list in defaults.sources.list is used as it is; otherwise extra sources come before user defaults
   and user defaults before system defaults. *)
Theorem default_sources_exact : forall src user system,
  (forall l, l <> [] -> src "list" = Some (VList (map VStr l)) -> build_defaults_list src user system = l) /\
  (forall s, src "list" = Some (VStr s) -> build_defaults_list src user system = [s]) /\
  (src "list" = Some (VBool true) ->
   build_defaults_list src user system =
   ["./topology-defaults.yml"; "~/.netlab.yml"; "~/topology-defaults.yml"; "/etc/netlab/defaults.yml"; "package:topology-defaults.yml"]) /\
  (src "list" = None -> exists e u s,
   build_defaults_list src user system = e ++ u ++ s /\
   (src "extra" = None -> e = []) /\
   (forall l, src "extra" = Some (VList (map VStr l)) -> e = l) /\
   (forall x, src "extra" = Some (VStr x) -> e = [x]) /\
   (forall l, l <> [] -> src "user" = Some (VList (map VStr l)) -> u = l) /\
   (forall x, src "user" = Some (VStr x) -> u = [x]) /\
   (src "user" = None \/ src "user" = Some (VBool true) -> forall l, user = Some l -> u = l) /\
   (src "user" = None \/ src "user" = Some (VBool true) -> user = None ->
    u = ["./topology-defaults.yml"; "~/.netlab.yml"; "~/topology-defaults.yml"]) /\
   (forall l, l <> [] -> src "system" = Some (VList (map VStr l)) -> s = l) /\
   (forall x, src "system" = Some (VStr x) -> s = [x]) /\
   (src "system" = None \/ src "system" = Some (VBool true) -> forall l, system = Some l -> s = l) /\
   (src "system" = None \/ src "system" = Some (VBool true) -> system = None ->
    s = ["/etc/netlab/defaults.yml"; "package:topology-defaults.yml"])).
Proof.
  assert (ST : forall l, strings (map VStr l) = l).
  { unfold strings. induction l as [|x r IH]; [reflexivity|]. cbn [map flat_map app]. rewrite IH. reflexivity. }
  intros src user system. unfold build_defaults_list.
  split; [|split; [|split]].
  - intros l NE H. rewrite H. cbn [source_list]. rewrite ST. destruct l; [exfalso; apply NE; reflexivity|reflexivity].
  - intros s H. rewrite H. reflexivity.
  - intros H. rewrite H. reflexivity.
  - intros H. rewrite H. cbn [source_list].
    eexists _, _, _. split; [reflexivity|].
    split; [intros Q; rewrite Q; reflexivity|].
    split; [intros l Q; rewrite Q; cbn [source_list]; apply ST|].
    split; [intros x Q; rewrite Q; reflexivity|].
    split; [intros l NE Q; rewrite Q; cbn [source_list]; rewrite ST; destruct l; [exfalso; apply NE; reflexivity|reflexivity]|].
    split; [intros x Q; rewrite Q; reflexivity|].
    split; [intros [Q|Q] l U; rewrite Q, U; [reflexivity|cbn [source_list]; destruct l; reflexivity]|].
    split; [intros [Q|Q] U; rewrite Q, U; reflexivity|].
    split; [intros l NE Q; rewrite Q; cbn [source_list]; rewrite ST; destruct l; [exfalso; apply NE; reflexivity|reflexivity]|].
    split; [intros x Q; rewrite Q; reflexivity|].
    split; [intros [Q|Q] l U; rewrite Q, U; [reflexivity|cbn [source_list]; destruct l; reflexivity]|].
    intros [Q|Q] U; rewrite Q, U; reflexivity.
Qed.

(* An empty list of sources, or a false value, does not disable the default sources. *)
Theorem disabled_sources_refuted :
  let off := fun k : string => if String.eqb k "extra" then None else Some (VBool false) in
  let empty := fun k : string => if String.eqb k "extra" then None else Some (VList []) in
  build_defaults_list off None None = build_defaults_list (fun _ => None) None None /\
  build_defaults_list empty None None = build_defaults_list (fun _ => None) None None /\
  build_defaults_list empty None None <> [].
Proof. split; [reflexivity|]. split; [reflexivity|]. discriminate. Qed.

Lemma add_sources_spec : forall rd abs l d input,
  add_sources rd abs l (d, input) =
  (layer (map (contents rd) (used_files rd abs l)) d, input ++ used_files rd abs l).
Proof.
  intros rd abs. induction l as [|f r IH]; intros d input.
  - unfold used_files. cbn. rewrite app_nil_r. reflexivity.
  - unfold add_sources in *. cbn [fold_left]. unfold add_source at 2. cbn [fst snd].
    change (source_name abs f) with (if prefix "package:" f then f else abs f).
    unfold used_files in *. cbn [map filter].
    destruct (rd (if prefix "package:" f then f else abs f)) as [[|e d1]|] eqn:R; try apply IH.
    rewrite IH. cbn [map]. unfold contents at 2. rewrite R, <- app_assoc. reflexivity.
Qed.

(* The names of the files that were used. *)
Theorem default_files_recorded : forall rd abs l d input,
  snd (add_sources rd abs l (d, input)) = input ++ used_files rd abs l.
Proof. intros. rewrite add_sources_spec. reflexivity. Qed.

Lemma over_merge_r : forall b a p, wf b -> overridden p b -> overridden p (merge a b).
Proof.
  induction b as [b Hb|db IH] using val_ind2; intros a p W O.
  - rewrite merge_scalar_r by exact Hb. exact O.
  - destruct (is_dict a) eqn:DA; [|rewrite merge_scalar_l by exact DA; exact O].
    destruct a as [| | | | |da]; try discriminate DA. rewrite merge_dicts.
    destruct p as [|k p]; [apply overridden_nil|]. apply overridden_cons in O. destruct O as [x [D O]].
    apply overridden_cons. rewrite dget_mdict by (apply wf_VDict in W; exact (proj1 W)). rewrite D.
    destruct (dget k da) as [y|]; cbn [mopt].
    + exists (merge y x). split; [reflexivity|]. exact (IH _ _ (dget_In _ _ D) _ _ (wf_dget _ _ _ W D) O).
    + exists x. split; [reflexivity|exact O].
Qed.

(* a value in the lower tree is covered by the merged tree *)
Lemma over_merge_l : forall b a p x, wf b -> lookup p a = Some x -> overridden p (merge a b).
Proof.
  induction b as [b Hb|db IH] using val_ind2; intros a p x W L.
  - rewrite merge_scalar_r by exact Hb. apply overridden_scalar. exact Hb.
  - destruct p as [|k p]; [apply overridden_nil|]. destruct a as [| | | | |da]; try discriminate L.
    rewrite merge_dicts. apply overridden_cons. cbn [lookup] in L.
    rewrite dget_mdict by (apply wf_VDict in W; exact (proj1 W)).
    destruct (dget k da) as [y|] eqn:DA; [|discriminate L]. destruct (dget k db) as [z|] eqn:DB; cbn [mopt].
    + exists (merge y z). split; [reflexivity|]. exact (IH _ _ (dget_In _ _ DB) _ _ _ (wf_dget _ _ _ W DB) L).
    + exists y. split; [reflexivity|]. left. exists x. exact L.
Qed.

Lemma layer_over : forall ls n p v, wf n -> Forall wf ls -> overridden p n -> leaf p (layer ls n) v -> leaf p n v.
Proof.
  induction ls as [|s r IH]; intros n p v W F O L; [exact L|].
  inversion F as [|? ? W1 W2]; subst.
  assert (L2 : leaf p (merge s n) v).
  { apply (IH (merge s n)); [apply merge_wf; assumption|exact W2|apply over_merge_r; assumption|exact L]. }
  apply merge_leaves in L2; [|exact W]. destruct L2 as [L2|[_ L2]]; [exact L2|contradiction].
Qed.

Lemma layer_first_wins : forall ls n p v, wf n -> Forall wf ls -> leaf p (layer ls n) v ->
  exists i s, nth_error (n :: ls) i = Some s /\ leaf p s v /\
    forall j s', j < i -> nth_error (n :: ls) j = Some s' -> lookup p s' = None.
Proof.
  induction ls as [|s r IH]; intros n p v W F L.
  - exists 0, n. split; [reflexivity|]. split; [exact L|]. intros j s' J. lia.
  - inversion F as [|? ? W1 W2]; subst.
    assert (WM : wf (merge s n)) by (apply merge_wf; assumption).
    destruct (IH (merge s n) p v WM W2 L) as [i [x [N [LX B]]]].
    destruct i as [|i].
    + cbn [nth_error] in N. injection N as N. subst x. apply merge_leaves in LX; [|exact W].
      destruct LX as [LX|[LX O]].
      * exists 0, n. split; [reflexivity|]. split; [exact LX|]. intros j s' J. lia.
      * exists 1, s. split; [reflexivity|]. split; [exact LX|]. intros j s' J NJ.
        destruct j as [|j]; [|lia]. cbn [nth_error] in NJ. injection NJ as NJ. subst s'.
        destruct (lookup p n) as [y|] eqn:Q; [|reflexivity]. exfalso. apply O. left. exists y. exact Q.
    + exists (S (S i)), x. split; [exact N|]. split; [exact LX|]. intros j s' J NJ.
      pose proof (B 0 (merge s n) (Nat.lt_0_succ i) eq_refl) as BM.
      destruct j as [|[|j]].
      * cbn [nth_error] in NJ. injection NJ as NJ. subst s'. destruct (lookup p n) as [y|] eqn:Q; [|reflexivity].
        exfalso. assert (O : overridden p (merge s n)) by (apply over_merge_r; [exact W|left; exists y; exact Q]).
        pose proof (layer_over _ _ _ _ WM W2 O L) as [L0 _]. rewrite BM in L0. discriminate L0.
      * cbn [nth_error] in NJ. injection NJ as NJ. subst s'. destruct (lookup p s) as [y|] eqn:Q; [|reflexivity].
        exfalso. assert (O : overridden p (merge s n)) by (apply (over_merge_l n s p y W Q)).
        pose proof (layer_over _ _ _ _ WM W2 O L) as [L0 _]. rewrite BM in L0. discriminate L0.
      * apply (B (S j) s'); [lia|exact NJ].
Qed.

(* Every value in the final defaults comes from the topology or from one of the files, and no earlier source has
   a value in the same place. *)
Theorem defaults_first_wins : forall rd abs l d input p v, wf d ->
  (forall f x, rd f = Some x -> wf (VDict x)) ->
  leaf p (fst (add_sources rd abs l (d, input))) v ->
  exists i s, nth_error (d :: map (contents rd) (used_files rd abs l)) i = Some s /\ leaf p s v /\
    forall j s', j < i -> nth_error (d :: map (contents rd) (used_files rd abs l)) j = Some s' -> lookup p s' = None.
Proof.
  intros rd abs l d input p v W WR L. rewrite add_sources_spec in L. cbn [fst] in L.
  apply layer_first_wins; [exact W| |exact L].
  apply Forall_forall. intros x I. apply in_map_iff in I. destruct I as [f [E _]]. subst x. unfold contents.
  destruct (rd f) as [y|] eqn:R; [exact (WR _ _ R)|]. apply wf_VDict. split; [constructor|intros k v0 []].
Qed.

(* A value that no earlier source contradicts is in the final defaults. *)
Theorem defaults_used : forall rd abs l d input p v l1 f l2, wf d ->
  (forall f x, rd f = Some x -> wf (VDict x)) ->
  used_files rd abs l = l1 ++ f :: l2 -> leaf p (contents rd f) v ->
  ~ overridden p d -> (forall g, In g l1 -> ~ overridden p (contents rd g)) ->
  leaf p (fst (add_sources rd abs l (d, input))) v.
Proof.
  intros rd abs l d input p v l1 f l2 W WR U L O OB. rewrite add_sources_spec. cbn [fst]. rewrite U, map_app. cbn [map].
  apply layer_first; [exact W| |exact L|exact O|].
  - apply Forall_forall. intros x I.
    assert (X : exists g, x = contents rd g).
    { apply in_app_iff in I. destruct I as [I|[I|I]]; [apply in_map_iff in I; destruct I as [g [E _]]; exists g; symmetry; exact E|
        exists f; symmetry; exact I|apply in_map_iff in I; destruct I as [g [E _]]; exists g; symmetry; exact E]. }
    destruct X as [g X]. subst x. unfold contents. destruct (rd g) as [y|] eqn:R; [exact (WR _ _ R)|].
    apply wf_VDict. split; [constructor|intros k v0 []].
  - intros h I. apply in_map_iff in I. destruct I as [g [E I]]. subst h. exact (OB g I).
Qed.

(* Values in the topology file are never replaced. *)
Theorem topology_defaults_kept : forall rd abs l d input p v, wf d ->
  (forall f x, rd f = Some x -> wf (VDict x)) -> leaf p d v ->
  leaf p (fst (add_sources rd abs l (d, input))) v.
Proof.
  intros rd abs l d input p v W WR L. rewrite add_sources_spec. cbn [fst]. apply layer_keeps; [exact W| |exact L].
  apply Forall_forall. intros x I. apply in_map_iff in I. destruct I as [f [E _]]. subst x. unfold contents.
  destruct (rd f) as [y|] eqn:R; [exact (WR _ _ R)|]. apply wf_VDict. split; [constructor|intros k v0 []].
Qed.

(* A source that replaces a dictionary with something else does not hide the dictionary in a later source when an
   earlier source has a dictionary there: the result is not what the later sources say on their own. *)
Definition ex_files (f : string) : option (dict val) :=
  if String.eqb f "package:user.yml" then Some [("device", VDict [("mtu", VInt 1500)])]
  else if String.eqb f "package:lab.yml" then Some [("device", VStr "none")]
  else if String.eqb f "package:sys.yml" then Some [("device", VDict [("image", VStr "x"); ("mtu", VInt 9000)])]
  else if String.eqb f "package:lab+sys.yml" then Some [("device", VStr "none")]
  else None.

Theorem hidden_defaults_refuted :
  fst (add_sources ex_files (fun f => f) ["package:lab.yml"; "package:sys.yml"] (VDict [], [])) = contents ex_files "package:lab+sys.yml" /\
  lookup ["device"; "image"] (fst (add_sources ex_files (fun f => f) ["package:user.yml"; "package:lab.yml"; "package:sys.yml"] (VDict [], []))) =
    Some (VStr "x") /\
  lookup ["device"; "image"] (fst (add_sources ex_files (fun f => f) ["package:user.yml"; "package:lab+sys.yml"] (VDict [], []))) = None.
Proof. split; [reflexivity|]. split; reflexivity. Qed.

Example ex_sources :
  leaf ["device"; "mtu"] (fst (add_sources ex_files (fun f => f) ["package:user.yml"; "x.yml"; "package:sys.yml"] (VDict [], []))) (VInt 1500) /\
  leaf ["device"; "image"] (fst (add_sources ex_files (fun f => f) ["package:user.yml"; "x.yml"; "package:sys.yml"] (VDict [], []))) (VStr "x") /\
  snd (add_sources ex_files (fun f => f) ["package:user.yml"; "x.yml"; "package:sys.yml"] (VDict [], ["topology.yml"])) =
    ["topology.yml"; "package:user.yml"; "package:sys.yml"].
Proof. split; [split; reflexivity|]. split; [split; reflexivity|reflexivity]. Qed.

(* ------------------------------------------------------------------ *)
(* C153: environment variables                                          *)

(* the place a variable sets *)
Definition env_path (n : string) (p : list string) : Prop := exists k, env_key n = Some k /\ p = path_of k.

Lemma env_other : forall env t t' q, env_defaults env t = Some t' ->
  (forall n v p, In (n, v) env -> env_path n p -> apart p q) -> lookup q t' = lookup q t.
Proof.
  induction env as [|[n v] r IH]; intros t t' q H A; cbn [env_defaults] in H.
  - injection H as H. subst t'. reflexivity.
  - destruct (env_key n) as [k|] eqn:K.
    + destruct (set_path (path_of k) v t) as [t1|] eqn:S; [|discriminate H].
      rewrite (IH _ _ _ H).
      * apply (set_path_other _ _ _ _ _ S). apply (A n v); [left; reflexivity|]. exists k. split; [exact K|reflexivity].
      * intros n' v' p I. apply (A n' v' p). right; exact I.
    + apply (IH _ _ _ H). intros n' v' p I. apply (A n' v' p). right; exact I.
Qed.

Lemma env_app : forall e1 e2 t, env_defaults (e1 ++ e2) t = match env_defaults e1 t with Some t1 => env_defaults e2 t1 | None => None end.
Proof.
  induction e1 as [|[n v] r IH]; intros e2 t; cbn [app env_defaults]; [reflexivity|].
  destruct (env_key n) as [k|]; [|apply IH]. destruct (set_path (path_of k) v t) as [t1|]; [apply IH|reflexivity].
Qed.

(* An environment variable replaces whatever the topology and the files say; everything else stays. *)
Theorem environment_wins : forall rd abs user system env topo t t' input,
  load rd abs user system env topo t = Some (t', input) -> user <> Some [] ->
  (forall e1 n v e2 p, env = e1 ++ (n, v) :: e2 -> env_path n p ->
   (forall n' v' p', In (n', v') e2 -> env_path n' p' -> apart p' p) ->
   lookup ("defaults" :: p) t' = Some v) /\
  (forall q, (forall n v p, In (n, v) env -> env_path n p -> apart p q) ->
   lookup ("defaults" :: q) t' =
   lookup q (fst (add_sources rd abs (build_defaults_list (fun k => lookup ["defaults"; "sources"; k] t) user system)
                   (match lookup ["defaults"] t with Some x => x | None => VDict [] end, [topo])))) /\
  (forall k q, k <> "defaults" -> lookup (k :: q) t' = lookup (k :: q) t).
Proof.
  intros rd abs user system env topo t t' input H NU. unfold load in H.
  set (D := match lookup ["defaults"] t with Some x => x | None => VDict [] end) in *.
  destruct (add_sources rd abs (build_defaults_list (fun k => lookup ["defaults"; "sources"; k] t) user system) (D, [topo])) as [d1 inp].
  cbn [fst].
  assert (E : (match user with Some [] => Some d1 | _ => env_defaults env d1 end) = env_defaults env d1).
  { destruct user as [[|x r]|]; [exfalso; apply NU; reflexivity|reflexivity|reflexivity]. }
  rewrite E in H. destruct (env_defaults env d1) as [d2|] eqn:ED; [|discriminate H].
  destruct (set_path ["defaults"] d2 t) as [t1|] eqn:S; [|discriminate H].
  injection H as H1 H2. subst t1 inp.
  assert (LD : forall q, lookup ("defaults" :: q) t' = lookup q d2).
  { intros q. pose proof (set_path_same _ _ _ _ S) as L. cbn [lookup] in L |- *. destruct t' as [| | | | |d]; try discriminate L.
    destruct (dget "defaults" d) as [x|]; [|discriminate L]. injection L as L. subst x. reflexivity. }
  split; [|split].
  - intros e1 n v e2 p EE [k [K P]] A. rewrite LD. subst env. rewrite env_app in ED.
    destruct (env_defaults e1 d1) as [d3|]; [|discriminate ED]. cbn [env_defaults] in ED. rewrite K in ED.
    destruct (set_path (path_of k) v d3) as [d4|] eqn:S4; [|discriminate ED]. subst p.
    rewrite (env_other _ _ _ _ ED A). exact (set_path_same _ _ _ _ S4).
  - intros q A. rewrite LD. exact (env_other _ _ _ _ ED A).
  - intros k q N. apply (set_path_other _ _ _ _ _ S). apply apart_head. intros Q. apply N. symmetry. exact Q.
Qed.

(* Without user defaults the environment is not used. *)
Theorem environment_ignored : forall rd abs system env topo t,
  load rd abs (Some []) system env topo t = load rd abs (Some []) system [] topo t.
Proof. intros. reflexivity. Qed.

(* A variable below a value that is not a dictionary cannot be set. *)
Theorem environment_fails_iff : forall n k v t, env_key n = Some k ->
  (env_defaults [(n, v)] t = None <->
   exists q r x, path_of k = q ++ r /\ r <> [] /\ lookup q t = Some x /\ is_dict x = false).
Proof.
  intros n k v t K. cbn [env_defaults]. rewrite K. pose proof (set_path_ok (path_of k) v t) as OK.
  destruct (set_path (path_of k) v t) as [t1|] eqn:S; cbn.
  - split; [discriminate|]. intros [q [r [x [E [NE [L D]]]]]]. rewrite (proj1 OK (ex_intro _ t1 eq_refl) _ _ _ E NE L) in D. discriminate D.
  - split; [|reflexivity]. intros _.
    assert (X : forall p, path_of k = p -> forall u, set_path p v u = None ->
      exists q r x, p = q ++ r /\ r <> [] /\ lookup q u = Some x /\ is_dict x = false).
    { intros p _. clear. induction p as [|h p IH]; intros u H; [discriminate H|].
      destruct (is_dict u) eqn:DU.
      - destruct u as [| | | | |d]; try discriminate DU. cbn [set_path] in H.
        destruct (set_path p v (match dget h d with Some x => x | None => VDict [] end)) as [y|] eqn:S; [discriminate H|].
        destruct (IH _ S) as [q [r [x [E [NE [L D]]]]]].
        destruct (dget h d) as [z|] eqn:G.
        + exists (h :: q), r, x. split; [rewrite E; reflexivity|]. split; [exact NE|]. split; [|exact D]. cbn [lookup]. rewrite G. exact L.
        + exfalso. destruct q as [|g q]; [|discriminate L]. cbn [lookup] in L. injection L as L. subst x. discriminate D.
      - exists [], (h :: p), u. split; [reflexivity|]. split; [discriminate|]. split; [reflexivity|exact DU]. }
    exact (X _ eq_refl _ S).
Qed.

Example ex_environment :
  option_map fst (load ex_files (fun f => f) None (Some ["package:sys.yml"]) [("HOME", VStr "/"); ("NETLAB_DEVICE_MTU", VInt 1400)] "lab.yml"
    (VDict [("name", VStr "lab"); ("defaults", VDict [("device", VDict [("mtu", VInt 1600)])])])) =
  Some (VDict [("name", VStr "lab"); ("defaults", VDict [("device", VDict [("image", VStr "x"); ("mtu", VInt 1400)])])]).
Proof. reflexivity. Qed.

(* ------------------------------------------------------------------ *)
(* C155: command line arguments                                         *)

Lemma split_nonempty : forall sep s, split sep s <> [].
Proof.
  intros sep. destruct s as [|c s]; cbn [split]; [discriminate|]. destruct (Ascii.eqb c sep); [discriminate|].
  destruct (split sep s); discriminate.
Qed.

Lemma split_none : forall sep s, no_char sep s <-> split sep s = [s].
Proof.
  intros sep. induction s as [|c s IH]; cbn [split].
  - split; [reflexivity|intros _ []].
  - rewrite no_char_cons. destruct (Ascii.eqb_spec c sep) as [E|E].
    + split; [intros [N _]; contradiction|]. intros Q. discriminate Q.
    + split.
      * intros [_ N]. apply IH in N. rewrite N. reflexivity.
      * intros Q. split; [exact E|]. apply IH. destruct (split sep s) as [|x r] eqn:S; [exfalso; exact (split_nonempty _ _ S)|].
        injection Q as Q1 Q2. subst. reflexivity.
Qed.

Lemma split_head : forall sep s k r, no_char sep k -> s = (k ++ String sep r)%string -> split sep s = k :: split sep r.
Proof.
  intros sep s k. revert s. induction k as [|c k IH]; intros s r N E; subst s; cbn [append split].
  - rewrite Ascii.eqb_refl. reflexivity.
  - apply no_char_cons in N. destruct N as [N1 N2]. destruct (Ascii.eqb_spec c sep) as [Q|Q]; [contradiction|].
    rewrite (IH _ r N2 eq_refl). reflexivity.
Qed.

Lemma split_cons_inv : forall sep s k x r, split sep s = k :: x :: r ->
  exists t, s = (k ++ String sep t)%string /\ no_char sep k /\ split sep t = x :: r.
Proof.
  intros sep. induction s as [|c s IH]; intros k x r H; cbn [split] in H; [discriminate H|].
  destruct (Ascii.eqb_spec c sep) as [Q|Q].
  - injection H as H1 H2. subst k c. exists s. split; [reflexivity|]. split; [intros []|exact H2].
  - destruct (split sep s) as [|y q] eqn:S; [exfalso; exact (split_nonempty _ _ S)|].
    injection H as H1 H2. subst k q. destruct (IH _ _ _ eq_refl) as [t [E [N T]]].
    exists t. split; [rewrite E; reflexivity|]. split; [|exact T]. apply no_char_cons. split; assumption.
Qed.

Lemma split_single : forall sep s v, split sep s = [v] -> s = v.
Proof.
  intros sep. induction s as [|c s IH]; intros v H; cbn [split] in H; [injection H as H; exact H|].
  destruct (Ascii.eqb c sep).
  - injection H as H1 H2. exfalso. exact (split_nonempty _ _ H2).
  - destruct (split sep s) as [|y q] eqn:S; [exfalso; exact (split_nonempty _ _ S)|].
    injection H as H1 H2. subst v q. f_equal. apply IH. reflexivity.
Qed.

(* one character c in the text, between k and v *)
Definition pair_of (c : ascii) (s k v : string) : Prop := s = (k ++ String c v)%string /\ no_char c k /\ no_char c v.

Lemma split_pair : forall c s k v, split c s = [k; v] <-> pair_of c s k v.
Proof.
  intros c s k v. unfold pair_of. split.
  - intros H. apply split_cons_inv in H. destruct H as [t [E [N T]]].
    assert (NT : t = v) by exact (split_single _ _ _ T). subst v. apply split_none in T.
    split; [exact E|]. split; assumption.
  - intros [E [NK NV]]. rewrite (split_head _ _ _ _ NK E). apply split_none in NV. rewrite NV. reflexivity.
Qed.

Section Cli_props.
Variable as_int : string -> option Z.

(* how a value on the command line is read *)
Theorem cli_value_exact : forall s,
  (forall z, as_int s = Some z -> cli_value as_int s = VInt z) /\
  (as_int s = None -> lower s = "true" -> cli_value as_int s = VBool true) /\
  (as_int s = None -> lower s = "false" -> cli_value as_int s = VBool false) /\
  (as_int s = None -> lower s <> "true" -> lower s <> "false" -> cli_value as_int s = VStr s).
Proof.
  intros s. unfold cli_value. split; [intros z H; rewrite H; reflexivity|].
  split; [intros H E; rewrite H, E; reflexivity|]. split; [intros H E; rewrite H, E; reflexivity|].
  intros H N1 N2. rewrite H. apply String.eqb_neq in N1, N2. rewrite N1, N2. reflexivity.
Qed.

Lemma settings_app : forall l1 l2 t, cli_settings as_int (l1 ++ l2) t =
  match cli_settings as_int l1 t with Ok t1 => cli_settings as_int l2 t1 | Err e => Err e end.
Proof.
  induction l1 as [|s r IH]; intros l2 t; cbn [app cli_settings]; [reflexivity|].
  destruct (split "=" s) as [|k [|v [|x q]]]; try reflexivity.
  destruct (set_or (path_of k) (cli_value as_int v) t) as [t1|e]; [apply IH|reflexivity].
Qed.

Lemma settings_other : forall l t t' q, cli_settings as_int l t = Ok t' ->
  (forall s k v, In s l -> pair_of "=" s k v -> apart (path_of k) q) -> lookup q t' = lookup q t.
Proof.
  induction l as [|s r IH]; intros t t' q H A; cbn [cli_settings] in H; [injection H as H; subst; reflexivity|].
  destruct (split "=" s) as [|k [|v [|x y]]] eqn:S; try discriminate H. apply split_pair in S.
  unfold set_or in H. destruct (set_path (path_of k) (cli_value as_int v) t) as [t1|] eqn:P; [|discriminate H].
  rewrite (IH _ _ _ H).
  - apply (set_path_other _ _ _ _ _ P). apply (A s k v); [left; reflexivity|exact S].
  - intros s' k' v' I. apply (A s' k' v'). right; exact I.
Qed.

(* A setting replaces the value in its place and nothing else; later settings replace earlier ones. *)
Theorem setting_applied : forall l t t', cli_settings as_int l t = Ok t' ->
  (forall l1 s l2 k v, l = l1 ++ s :: l2 -> pair_of "=" s k v ->
   (forall s' k' v', In s' l2 -> pair_of "=" s' k' v' -> apart (path_of k') (path_of k)) ->
   lookup (path_of k) t' = Some (cli_value as_int v)) /\
  (forall q, (forall s k v, In s l -> pair_of "=" s k v -> apart (path_of k) q) -> lookup q t' = lookup q t).
Proof.
  intros l t t' H. split; [|intros q; exact (settings_other l t t' q H)].
  intros l1 s l2 k v E P A. subst l. rewrite settings_app in H.
  destruct (cli_settings as_int l1 t) as [t1|e]; [|discriminate H]. cbn [cli_settings] in H.
  apply split_pair in P. rewrite P in H. unfold set_or in H.
  destruct (set_path (path_of k) (cli_value as_int v) t1) as [t2|] eqn:S; [|discriminate H].
  rewrite (settings_other _ _ _ _ H A). exact (set_path_same _ _ _ _ S).
Qed.

(* Settings are refused exactly when one of them does not have one equals sign (none, or more than one) or when a
   value that is not a dictionary is in the way. *)
Theorem setting_refused_iff : forall s t,
  (cli_settings as_int [s] t = Err (CFormat s) <-> ~ exists k v, pair_of "=" s k v) /\
  (forall k v, pair_of "=" s k v ->
   (exists t', cli_settings as_int [s] t = Ok t') <->
   forall q r x, path_of k = q ++ r -> r <> [] -> lookup q t = Some x -> is_dict x = true).
Proof.
  intros s t. cbn [cli_settings]. split.
  - split.
    + intros H [k [v P]]. apply split_pair in P. rewrite P in H. unfold set_or in H.
      destruct (set_path (path_of k) (cli_value as_int v) t); discriminate H.
    + intros N. destruct (split "=" s) as [|k [|v [|x y]]] eqn:S; try reflexivity.
      exfalso. apply N. exists k, v. apply split_pair. exact S.
  - intros k v P. apply split_pair in P. rewrite P. unfold set_or. rewrite <- (set_path_ok (path_of k) (cli_value as_int v) t).
    destruct (set_path (path_of k) (cli_value as_int v) t) as [t1|]; split; intros [x Q]; try discriminate Q; exists t1; reflexivity.
Qed.

Lemma options_other : forall p l t t' q, provider_options p l t = Ok t' ->
  (forall o, In o l -> apart (["defaults"; "providers"] ++ path_of p ++ path_of o) q) -> lookup q t' = lookup q t.
Proof.
  intros p. induction l as [|o r IH]; intros t t' q H A; cbn [provider_options] in H; [injection H as H; subst; reflexivity|].
  unfold set_or in H. destruct (set_path (["defaults"; "providers"] ++ path_of p ++ path_of o) (VBool true) t) as [t1|] eqn:S; [|discriminate H].
  rewrite (IH _ _ _ H).
  - apply (set_path_other _ _ _ _ _ S). apply A. left; reflexivity.
  - intros o' I. apply A. right; exact I.
Qed.

Lemma options_set : forall p l t t' o, provider_options p l t = Ok t' -> In o l ->
  (forall o', In o' l -> o' = o \/ apart (path_of o') (path_of o)) ->
  lookup (["defaults"; "providers"] ++ path_of p ++ path_of o) t' = Some (VBool true).
Proof.
  intros p. induction l as [|x r IH]; intros t t' o H I A; [destruct I|]. cbn [provider_options] in H.
  unfold set_or in H. destruct (set_path (["defaults"; "providers"] ++ path_of p ++ path_of x) (VBool true) t) as [t1|] eqn:S; [|discriminate H].
  assert (AP : forall a b c, apart b c -> apart (a ++ b) (a ++ c)).
  { intros a b c B. induction a as [|h a IA]; [exact B|]. cbn [app]. apply apart_cons. exact IA. }
  destruct (in_dec string_dec o r) as [IR|NR].
  - apply (IH _ _ _ H IR). intros o' I'. apply A. right; exact I'.
  - destruct I as [I|I]; [|contradiction]. subst x. rewrite (options_other _ _ _ _ _ H).
    + exact (set_path_same _ _ _ _ S).
    + intros o' I'. destruct (A o' (or_intror I')) as [Q|Q]; [subst o'; contradiction|].
      apply (AP ["defaults"; "providers"]). apply AP. exact Q.
Qed.

(* The provider argument: a provider, and options in groups that follow colons. *)
Theorem cli_provider_applied : forall a t t', cli_provider a t = Ok t' ->
  exists p opts, split ":" a = p :: opts /\ lookup ["provider"] t' = Some (VStr p) /\
    (forall g o, In g opts -> In o (split "," g) ->
     (forall g' o', In g' opts -> In o' (split "," g') -> o' = o \/ apart (path_of o') (path_of o)) ->
     lookup (["defaults"; "providers"] ++ path_of p ++ path_of o) t' = Some (VBool true)) /\
    (forall q, apart ["provider"] q -> (forall g o, In g opts -> In o (split "," g) -> apart (["defaults"; "providers"] ++ path_of p ++ path_of o) q) ->
     lookup q t' = lookup q t).
Proof.
  intros a t t' H. unfold cli_provider in H. destruct (split ":" a) as [|p opts] eqn:S; [exfalso; exact (split_nonempty _ _ S)|].
  exists p, opts. split; [reflexivity|].
  unfold set_or in H. destruct (set_path ["provider"] (VStr p) t) as [t1|] eqn:P; [|discriminate H].
  split.
  - rewrite (options_other _ _ _ _ _ H); [exact (set_path_same _ _ _ _ P)|].
    intros o _. cbn [app]. apply apart_head. discriminate.
  - split.
    + intros g o IG IO A. apply (options_set _ _ _ _ _ H).
      * apply in_flat_map. exists g. split; assumption.
      * intros o' I. apply in_flat_map in I. destruct I as [g' [IG' IO']]. exact (A g' o' IG' IO').
    + intros q AP A. rewrite (options_other _ _ _ _ _ H).
      * exact (set_path_other _ _ _ _ _ P AP).
      * intros o I. apply in_flat_map in I. destruct I as [g [IG IO]]. exact (A g o IG IO).
Qed.

(* Plugins on the command line follow the plugins in the topology. *)
Theorem cli_plugins_appended : forall l t t', l <> [] -> cli_plugin l t = Ok t' ->
  exists old, lookup ["plugin"] t' = Some (VList (old ++ map VStr l)) /\
    (forall x, lookup ["plugin"] t = Some (VList x) -> old = x) /\
    (forall s, lookup ["plugin"] t = Some (VStr s) -> old = [VStr s]) /\
    (lookup ["plugin"] t = None -> old = []) /\
    forall q, apart ["plugin"] q -> lookup q t' = lookup q t.
Proof.
  intros l t t' NE H. unfold cli_plugin in H. destruct l as [|a r]; [exfalso; apply NE; reflexivity|]. clear NE. unfold set_or in H.
  destruct (lookup ["plugin"] t) as [pv|] eqn:LP.
  - destruct pv as [|[|]|z|s|x|d]; try discriminate H;
    match type of H with match set_path _ (VList (?o ++ _)) _ with _ => _ end = _ => exists o end;
    match type of H with match ?e with _ => _ end = _ => destruct e as [t1|] eqn:S; [|discriminate H] end;
    injection H as H; subst t1; (split; [exact (set_path_same _ _ _ _ S)|]);
    (split; [intros y Q; try discriminate Q; injection Q as Q; exact Q|]);
    (split; [intros y Q; try discriminate Q; injection Q as Q; subst; reflexivity|]);
    (split; [intros Q; discriminate Q|]); intros q A; exact (set_path_other _ _ _ _ _ S A).
  - exists []. destruct (set_path ["plugin"] (VList ([] ++ map VStr (a :: r))) t) as [t1|] eqn:S; [|discriminate H].
    injection H as H; subst t1. split; [exact (set_path_same _ _ _ _ S)|].
    split; [intros y Q; discriminate Q|]. split; [intros y Q; discriminate Q|].
    split; [reflexivity|]. intros q A; exact (set_path_other _ _ _ _ _ S A).
Qed.
End Cli_props.

(* ------------------------------------------------------------------ *)
(* C155: the provider                                                   *)

Lemma apart_one : forall k q, apart [k] q <-> match q with [] => False | h :: _ => h <> k end.
Proof.
  intros k q. destruct q as [|h q].
  - split; [intros [_ B]; exact (B [k] eq_refl)|intros []].
  - split; [intros [A _] E; subst h; exact (A q eq_refl)|]. intros N. apply apart_head. intros E. apply N. symmetry. exact E.
Qed.

(* what is tested: the provider of the topology, or the default one *)
Definition wanted_provider (t : val) : option val :=
  match lookup ["provider"] t with Some v => Some v | None => lookup ["defaults"; "provider"] t end.

(* The three kinds of errors. *)
Theorem provider_errors_exact : forall t,
  (adjust_provider t = Err PMissing <-> forall v, wanted_provider t = Some v -> truthy v = false) /\
  (adjust_provider t = Err PNotString <-> exists v, wanted_provider t = Some v /\ truthy v = true /\ forall s, v <> VStr s) /\
  (forall p, adjust_provider t = Err (PUnknown p) <->
     wanted_provider t = Some (VStr p) /\ p <> "" /\ lookup ["defaults"; "providers"; p] t = None).
Proof.
  intros t. unfold adjust_provider. fold (wanted_provider t).
  destruct (wanted_provider t) as [v|].
  2:{ split; [split; [intros _ v Q; discriminate Q|reflexivity]|].
      split; [split; [discriminate|intros [v [Q _]]; discriminate Q]|].
      intros p; split; [discriminate|intros [Q _]; discriminate Q]. }
  destruct (truthy v) eqn:T; cbn [negb].
  2:{ split; [split; [intros _ w Q; injection Q as Q; subst w; exact T|reflexivity]|].
      split; [split; [discriminate|intros [w [Q [TW _]]]; injection Q as Q; subst w; rewrite T in TW; discriminate TW]|].
      intros p; split; [discriminate|]. intros [Q [NE _]]. injection Q as Q. subst v. cbn [truthy] in T.
      apply negb_false_iff in T. apply String.eqb_eq in T. contradiction. }
  assert (NM : ~ forall w, Some v = Some w -> truthy w = false) by (intros A; rewrite (A v eq_refl) in T; discriminate T).
  destruct v as [|b|z|s|l|d];
    try (split; [split; [discriminate|intros A; contradiction]|]; split;
         [split; [intros _; eexists; split; [reflexivity|]; split; [exact T|intros q Q; discriminate Q]|reflexivity]|];
         intros p; split; [discriminate|intros [Q _]; discriminate Q]).
  assert (NS : s <> "") by (cbn [truthy] in T; apply negb_true_iff in T; apply String.eqb_neq in T; exact T).
  destruct (lookup ["defaults"; "providers"; s] t) as [pd|] eqn:L.
  - split; [split; [destruct (lookup ["addressing"] pd); discriminate|intros A; contradiction]|]. split.
    + split; [destruct (lookup ["addressing"] pd); discriminate|]. intros [w [Q [_ N]]]. injection Q as Q. subst w. exfalso. exact (N s eq_refl).
    + intros p. split; [destruct (lookup ["addressing"] pd); discriminate|]. intros [Q [_ N]]. injection Q as Q. subst p. rewrite L in N. discriminate N.
  - split; [split; [discriminate|intros A; contradiction]|]. split.
    + split; [discriminate|]. intros [w [Q [_ N]]]. injection Q as Q. subst w. exfalso. exact (N s eq_refl).
    + intros p. split.
      * intros Q. injection Q as Q. subst p. split; [reflexivity|]. split; [exact NS|exact L].
      * intros [Q _]. injection Q as Q. subst p. reflexivity.
Qed.

Lemma provider_dicts : forall t p pd, lookup ["defaults"; "providers"; p] t = Some pd ->
  exists d dd, t = VDict d /\ dget "defaults" d = Some (VDict dd).
Proof.
  intros t p pd H. destruct t as [| | | | |d]; try discriminate H. cbn [lookup] in H.
  destruct (dget "defaults" d) as [x|] eqn:D; [|discriminate H]. destruct x as [| | | | |dd]; try discriminate H.
  exists d, dd. split; [reflexivity|exact D].
Qed.

(* A topology that is accepted has the same provider in both places, its addressing replaces the default one, and
   nothing else changes. *)
Theorem provider_adjusted : forall t t', wf t -> adjust_provider t = Ok t' ->
  exists p pd, wanted_provider t = Some (VStr p) /\ lookup ["defaults"; "providers"; p] t = Some pd /\
    lookup ["provider"] t' = Some (VStr p) /\ lookup ["defaults"; "provider"] t' = Some (VStr p) /\
    (lookup ["addressing"] pd = None -> lookup ["defaults"; "addressing"] t' = lookup ["defaults"; "addressing"] t) /\
    (forall a, lookup ["addressing"] pd = Some (VDict a) -> forall q v,
      leaf (["defaults"; "addressing"] ++ q) t' v <->
      leaf q (VDict a) v \/ (leaf (["defaults"; "addressing"] ++ q) t v /\ ~ overridden q (VDict a))) /\
    (forall q, apart ["provider"] q -> apart ["defaults"; "provider"] q -> apart ["defaults"; "addressing"] q ->
      lookup q t' = lookup q t).
Proof.
  intros t t' W H. unfold adjust_provider in H. fold (wanted_provider t) in H.
  destruct (wanted_provider t) as [v|] eqn:WP; [|discriminate H].
  destruct (negb (truthy v)) eqn:T; [discriminate H|].
  destruct v as [| | |p| |]; try discriminate H.
  destruct (lookup ["defaults"; "providers"; p] t) as [pd|] eqn:L; [|discriminate H].
  exists p, pd. split; [reflexivity|]. split; [exact L|].
  destruct (provider_dicts _ _ _ L) as [d [dd [E D]]]. subst t.
  assert (S1 : set_path ["provider"] (VStr p) (VDict d) = Some (VDict (dset "provider" (VStr p) d))) by reflexivity.
  rewrite S1 in H.
  assert (D1 : dget "defaults" (dset "provider" (VStr p) d) = Some (VDict dd)) by (rewrite dget_dset_other by discriminate; exact D).
  set (d1 := dset "provider" (VStr p) d) in *.
  assert (S2 : set_path ["defaults"; "provider"] (VStr p) (VDict d1) =
               Some (VDict (dset "defaults" (VDict (dset "provider" (VStr p) dd)) d1))).
  { cbn [set_path]. rewrite D1. reflexivity. }
  rewrite S2 in H. set (d2 := dset "defaults" (VDict (dset "provider" (VStr p) dd)) d1) in *.
  set (dd2 := dset "provider" (VStr p) dd) in *.
  assert (D2 : dget "defaults" d2 = Some (VDict dd2)) by (unfold d2; apply dget_dset_same).
  assert (LA : lookup ["defaults"; "addressing"] (VDict d2) = lookup ["defaults"; "addressing"] (VDict d)).
  { cbn [lookup]. rewrite D2, D. unfold dd2. rewrite dget_dset_other by discriminate. reflexivity. }
  assert (P1 : lookup ["provider"] (VDict d2) = Some (VStr p)).
  { unfold d2, d1. cbn [lookup]. rewrite dget_dset_other by discriminate. rewrite dget_dset_same. reflexivity. }
  assert (P2 : lookup ["defaults"; "provider"] (VDict d2) = Some (VStr p)) by (apply (set_path_same _ _ _ _ S2)).
  assert (OT : forall q, apart ["provider"] q -> apart ["defaults"; "provider"] q -> lookup q (VDict d2) = lookup q (VDict d)).
  { intros q A1 A2. rewrite (set_path_other _ _ _ _ _ S2 A2). exact (set_path_other _ _ _ _ _ S1 A1). }
  destruct (lookup ["addressing"] pd) as [a|] eqn:A.
  - set (old := match lookup ["defaults"; "addressing"] (VDict d2) with Some x => x | None => VDict [] end) in *.
    assert (S3 : set_path ["defaults"; "addressing"] (merge old a) (VDict d2) =
                 Some (VDict (dset "defaults" (VDict (dset "addressing" (merge old a) dd2)) d2))).
    { cbn [set_path]. rewrite D2. reflexivity. }
    rewrite S3 in H. injection H as H. subst t'.
    split. { rewrite (set_path_other _ _ _ _ _ S3); [exact P1|]. apply apart_head. discriminate. }
    split. { rewrite (set_path_other _ _ _ _ _ S3); [exact P2|]. apply apart_cons. apply apart_head. discriminate. }
    split; [discriminate|]. split.
    + intros a' Q q v. injection Q as Q. subst a.
      assert (WA : wf (VDict a')).
      { assert (WPD : forall q0 t0 y, wf t0 -> lookup q0 t0 = Some y -> wf y).
        { induction q0 as [|h q0 IQ]; intros t0 y W0 L0; cbn [lookup] in L0; [injection L0 as L0; subst; exact W0|].
          destruct t0 as [| | | | |d0]; try discriminate L0. destruct (dget h d0) as [z|] eqn:Z; [|discriminate L0].
          exact (IQ _ _ (wf_dget _ _ _ W0 Z) L0). }
        apply (WPD ["addressing"] pd); [|exact A]. exact (WPD _ _ _ W L). }
      assert (LL : lookup (["defaults"; "addressing"] ++ q)
                     (VDict (dset "defaults" (VDict (dset "addressing" (merge old (VDict a')) dd2)) d2)) = lookup q (merge old (VDict a'))).
      { cbn [app lookup]. rewrite dget_dset_same. cbn [lookup]. rewrite dget_dset_same. reflexivity. }
      assert (LO : lookup (["defaults"; "addressing"] ++ q) (VDict d) =
                   match lookup ["defaults"; "addressing"] (VDict d) with Some x => lookup q x | None => None end).
      { cbn [app lookup]. rewrite D. destruct (dget "addressing" dd); reflexivity. }
      unfold leaf at 1. rewrite LL. fold (leaf q (merge old (VDict a')) v). rewrite merge_leaves by exact WA.
      assert (OL : ~ overridden q (VDict a') -> (leaf q old v <-> leaf (["defaults"; "addressing"] ++ q) (VDict d) v)).
      { intros NO. unfold leaf. rewrite LO, <- LA. unfold old.
        destruct (lookup ["defaults"; "addressing"] (VDict d2)) as [x|]; [reflexivity|].
        destruct q as [|h q]; [exfalso; apply NO; apply overridden_nil|]. reflexivity. }
      split; intros [X|[X Y]]; [left; exact X|right; split; [apply OL; assumption|exact Y]|left; exact X|right; split; [apply OL; assumption|exact Y]].
    + intros q A1 A2 A3. rewrite (set_path_other _ _ _ _ _ S3 A3). exact (OT q A1 A2).
  - injection H as H. subst t'. split; [exact P1|]. split; [exact P2|]. split; [intros _; exact LA|].
    split; [intros a' Q; discriminate Q|]. intros q A1 A2 _. exact (OT q A1 A2).
Qed.

(* The command line has priority over the topology, the topology over the environment, and the environment over the
   defaults in the files. *)
Theorem provider_order : forall as_int rd abs user system env topo t t1 t2 t3 input c, wf t2 ->
  load rd abs user system env topo t = Some (t1, input) -> user <> Some [] ->
  add_cli_args as_int c t1 = Ok t2 -> adjust_provider t2 = Ok t3 ->
  (forall s k v, In s (c_set c) -> pair_of "=" s k v -> apart (path_of k) ["provider"] /\ apart (path_of k) ["defaults"; "provider"]) ->
  (forall a p o, c_provider c = Some a -> split ":" a = p :: o -> lookup ["provider"] t3 = Some (VStr p)) /\
  (c_provider c = None -> forall v, lookup ["provider"] t = Some v -> lookup ["provider"] t3 = Some v) /\
  (c_provider c = None -> lookup ["provider"] t = None -> forall v e1 e2, env = e1 ++ ("NETLAB_PROVIDER", v) :: e2 ->
   (forall n w p, In (n, w) e2 -> env_path n p -> apart p ["provider"]) -> lookup ["provider"] t3 = Some v) /\
  (c_provider c = None -> lookup ["provider"] t = None -> (forall n w p, In (n, w) env -> env_path n p -> apart p ["provider"]) ->
   lookup ["provider"] t3 =
   lookup ["provider"] (fst (add_sources rd abs (build_defaults_list (fun k => lookup ["defaults"; "sources"; k] t) user system)
                   (match lookup ["defaults"] t with Some x => x | None => VDict [] end, [topo])))).
Proof.
  intros as_int rd abs user system env topo t t1 t2 t3 input c W LD NU CA AP NS.
  destruct (environment_wins _ _ _ _ _ _ _ _ _ LD NU) as [EW [EO EK]].
  destruct (provider_adjusted _ _ W AP) as [p [pd [WP [_ [P3 _]]]]].
  unfold add_cli_args, bind in CA.
  destruct (match c_device c with Some d => set_or ["defaults"; "device"] (VStr d) t1 | None => Ok t1 end) as [ta|e] eqn:CD; [|discriminate CA].
  destruct (match c_provider c with Some a => cli_provider a ta | None => Ok ta end) as [tb|e] eqn:CP; [|discriminate CA].
  destruct (cli_plugin (c_plugin c) tb) as [tc|e] eqn:CG; [|discriminate CA].
  assert (QA : forall q, apart ["defaults"; "device"] q -> lookup q ta = lookup q t1).
  { intros q A. destruct (c_device c) as [d|]; [|injection CD as CD; subst; reflexivity].
    unfold set_or in CD. destruct (set_path ["defaults"; "device"] (VStr d) t1) as [x|] eqn:S; [|discriminate CD].
    injection CD as CD. subst x. exact (set_path_other _ _ _ _ _ S A). }
  assert (QC : forall q, apart ["plugin"] q -> lookup q tc = lookup q tb).
  { intros q A. destruct (c_plugin c) as [|x r] eqn:CGE; [injection CG as CG; subst; reflexivity|].
    destruct (cli_plugins_appended (x :: r) tb tc ltac:(discriminate) CG) as [old [_ [_ [_ [_ O]]]]]. exact (O q A). }
  assert (Q1 : lookup ["provider"] t2 = lookup ["provider"] tc).
  { apply (settings_other as_int _ _ _ _ CA). intros s k v I P. exact (proj1 (NS s k v I P)). }
  assert (Q2 : lookup ["defaults"; "provider"] t2 = lookup ["defaults"; "provider"] tc).
  { apply (settings_other as_int _ _ _ _ CA). intros s k v I P. exact (proj2 (NS s k v I P)). }
  rewrite QC in Q1 by (apply apart_head; discriminate). rewrite QC in Q2 by (apply apart_head; discriminate).
  unfold wanted_provider in WP. rewrite Q1, Q2 in WP.
  assert (R1 : lookup ["provider"] ta = lookup ["provider"] t).
  { rewrite QA by (apply apart_head; discriminate). apply EK. discriminate. }
  assert (R2 : lookup ["defaults"; "provider"] ta = lookup ["defaults"; "provider"] t1).
  { apply QA. apply apart_cons. apply apart_head. discriminate. }
  split; [|split; [|split]].
  - intros a p' o CPE SP. rewrite CPE in CP. destruct (cli_provider_applied _ _ _ CP) as [p0 [o0 [SE [LP _]]]].
    rewrite SP in SE. injection SE as SE1 SE2. subst p0 o0. rewrite LP in WP. rewrite P3. symmetry. exact WP.
  - intros CPE v LV. rewrite CPE in CP. injection CP as CP. subst tb. rewrite R1, LV in WP. rewrite P3. symmetry. exact WP.
  - intros CPE LN v e1 e2 EE A. rewrite CPE in CP. injection CP as CP. subst tb. rewrite R1, LN, R2 in WP.
    assert (EP : env_path "NETLAB_PROVIDER" ["provider"]) by (exists "provider"; split; reflexivity).
    pose proof (EW _ _ _ _ _ EE EP A) as LV. rewrite LV in WP. rewrite P3. symmetry. exact WP.
  - intros CPE LN A. rewrite CPE in CP. injection CP as CP. subst tb. rewrite R1, LN, R2 in WP.
    rewrite <- (EO ["provider"] A). rewrite P3, WP. reflexivity.
Qed.

(* The device on the command line replaces the default device, whatever the provider and plugin arguments are;
   settings come last and replace everything. *)
Theorem cli_arguments_order : forall as_int c t t', add_cli_args as_int c t = Ok t' ->
  (forall d, c_device c = Some d ->
   (forall s k v, In s (c_set c) -> pair_of "=" s k v -> apart (path_of k) ["defaults"; "device"]) ->
   lookup ["defaults"; "device"] t' = Some (VStr d)) /\
  (forall l1 s l2 k v, c_set c = l1 ++ s :: l2 -> pair_of "=" s k v ->
   (forall s' k' v', In s' l2 -> pair_of "=" s' k' v' -> apart (path_of k') (path_of k)) ->
   lookup (path_of k) t' = Some (cli_value as_int v)) /\
  (c_device c = None -> c_provider c = None -> c_plugin c = [] -> c_set c = [] -> t' = t).
Proof.
  intros as_int c t t' CA. unfold add_cli_args, bind in CA.
  destruct (match c_device c with Some d => set_or ["defaults"; "device"] (VStr d) t | None => Ok t end) as [ta|e] eqn:CD; [|discriminate CA].
  destruct (match c_provider c with Some a => cli_provider a ta | None => Ok ta end) as [tb|e] eqn:CP; [|discriminate CA].
  destruct (cli_plugin (c_plugin c) tb) as [tc|e] eqn:CG; [|discriminate CA].
  split; [|split].
  - intros d CDE NS. rewrite CDE in CD. unfold set_or in CD.
    destruct (set_path ["defaults"; "device"] (VStr d) t) as [x|] eqn:S; [|discriminate CD]. injection CD as CD. subst x.
    apply set_path_same in S. rewrite (settings_other as_int _ _ _ ["defaults"; "device"] CA NS).
    assert (E1 : lookup ["defaults"; "device"] tc = lookup ["defaults"; "device"] tb).
    { destruct (c_plugin c) as [|x r] eqn:CGE; [injection CG as CG; subst; reflexivity|].
      destruct (cli_plugins_appended (x :: r) tb tc ltac:(discriminate) CG) as [old [_ [_ [_ [_ O]]]]]. apply O. apply apart_head. discriminate. }
    assert (E2 : lookup ["defaults"; "device"] tb = lookup ["defaults"; "device"] ta).
    { destruct (c_provider c) as [a|]; [|injection CP as CP; subst; reflexivity].
      destruct (cli_provider_applied _ _ _ CP) as [p0 [o0 [_ [_ [_ O]]]]]. apply O; [apply apart_head; discriminate|].
      intros g o _ _. cbn [app]. apply apart_cons. apply apart_head. discriminate. }
    rewrite E1, E2. exact S.
  - exact (proj1 (setting_applied as_int _ _ _ CA)).
  - intros D P G S. rewrite D in CD. injection CD as CD. rewrite P in CP. injection CP as CP. rewrite G in CG. injection CG as CG.
    rewrite S in CA. injection CA as CA. congruence.
Qed.

(* the hypotheses can be met *)
Definition ex_topo := VDict [("provider", VStr "libvirt"); ("defaults", VDict [("device", VStr "eos");
  ("addressing", VDict [("mgmt", VDict [("ipv4", VStr "192.168.121.0/24"); ("start", VInt 100)])]);
  ("providers", VDict [("libvirt", VDict []); ("clab", VDict [("addressing", VDict [("mgmt", VDict [("start", VInt 101)])])])])])].

Example ex_provider : let as_int := fun s => if String.eqb s "10" then Some 10%Z else None in
  match load (fun _ => None) (fun f => f) None None [("NETLAB_PROVIDER", VStr "virtualbox")] "lab.yml" ex_topo with
  | Some (t, _) =>
      match add_cli_args as_int (mk_cli (Some "frr") (Some "clab:lock,runtime.docker") ["x"] ["bgp.as=10"; "name=no"]) t with
      | Ok t2 => match adjust_provider t2 with
                 | Ok t3 => lookup ["provider"] t3 = Some (VStr "clab") /\ lookup ["bgp"; "as"] t3 = Some (VInt 10) /\
                            lookup ["name"] t3 = Some (VStr "no") /\ lookup ["plugin"] t3 = Some (VList [VStr "x"]) /\
                            lookup ["defaults"; "provider"] t3 = Some (VStr "clab") /\
                            lookup ["defaults"; "providers"; "clab"; "runtime"; "docker"] t3 = Some (VBool true) /\
                            lookup ["defaults"; "addressing"; "mgmt"] t3 = Some (VDict [("ipv4", VStr "192.168.121.0/24"); ("start", VInt 101)])
                 | Err _ => False
                 end
      | Err _ => False
      end
  | None => False
  end.
Proof.
  vm_compute. repeat split; reflexivity.
Qed.

(* A value with an equals sign cannot be set on the command line. *)
Theorem setting_equals_refuted : forall as_int t, cli_settings as_int ["bgp.password=a=b"] t = Err (CFormat "bgp.password=a=b").
Proof. reflexivity. Qed.

Print Assumptions default_sources_exact.
Print Assumptions disabled_sources_refuted.
Print Assumptions default_files_recorded.
Print Assumptions defaults_first_wins.
Print Assumptions defaults_used.
Print Assumptions topology_defaults_kept.
Print Assumptions hidden_defaults_refuted.
Print Assumptions environment_wins.
Print Assumptions environment_ignored.
Print Assumptions environment_fails_iff.
Print Assumptions cli_value_exact.
Print Assumptions setting_applied.
Print Assumptions setting_refused_iff.
Print Assumptions cli_provider_applied.
Print Assumptions cli_plugins_appended.
Print Assumptions provider_errors_exact.
Print Assumptions provider_adjusted.
Print Assumptions provider_order.
Print Assumptions cli_arguments_order.
Print Assumptions setting_equals_refuted.
