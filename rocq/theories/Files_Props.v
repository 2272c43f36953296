(* Properties of search paths and file lookup: C49. *)
From Coq Require Import String Ascii Arith Lia Bool List.
From Verif Require Import Base Text_Model Text_Props Types_Model Mod_Model Mod_Props Files_Model.
Import ListNotations.
Local Open Scope string_scope.
Local Open Scope list_scope.

Section Env.
Variable resolve : string -> string.
Variable is_dir : string -> bool.
Variable expanduser : string -> string.
Variable moddir : string.
Variable topo : option string.

Local Notation entry := (entry_path expanduser moddir topo).
Local Notation loop := (search_loop resolve is_dir expanduser moddir topo).
Local Notation search := (absolute_search_path resolve is_dir expanduser moddir topo).

(* Entry [p] stands for directory [x] *)
Definition denotes (curdir : string) (skip : bool) (p x : string) : Prop :=
  exists q, entry curdir p = Ok (Some q) /\ x = resolve q /\ (skip = true -> is_dir q = true).

Lemma entry_error : forall curdir p, entry curdir p = Err EmptyPathEntry <-> p = EmptyString.
Proof.
  intros curdir p. split; [|intros ->; reflexivity]. unfold entry_path. destruct (contains "package:" p); [discriminate|].
  destruct (contains "topology:" p); [destruct topo as [t|]; [destruct (prefix "package:" t)|]; discriminate|].
  destruct (starts_with (Ascii.eqb "~") p); [discriminate|]. destruct p as [|c r]; auto. destruct (Ascii.eqb c "." || is_slash c); discriminate.
Qed.

Lemma loop_error : forall curdir skip path acc, loop curdir skip path acc = Err EmptyPathEntry <-> In EmptyString path.
Proof.
  intros curdir skip. induction path as [|p r IH]; intros acc; cbn [search_loop].
  - split; [discriminate|intros []].
  - destruct (entry curdir p) as [[q|]|[]] eqn:E.
    + assert (N : p <> EmptyString) by (intros C; apply entry_error with (curdir := curdir) in C; congruence).
      destruct (negb _ && _); rewrite IH; cbn [In]; intuition congruence.
    + assert (N : p <> EmptyString) by (intros C; apply entry_error with (curdir := curdir) in C; congruence).
      rewrite IH; cbn [In]; intuition congruence.
    + apply entry_error in E. subst. cbn [In]. tauto.
Qed.

Lemma step_cases : forall curdir skip p r acc out, loop curdir skip (p :: r) acc = Ok out ->
  (exists x, denotes curdir skip p x /\ ~ In x acc /\ loop curdir skip r (acc ++ [x]) = Ok out)
  \/ ((forall x, denotes curdir skip p x -> In x acc) /\ loop curdir skip r acc = Ok out).
Proof.
  intros curdir skip p r acc out H. cbn [search_loop] in H. destruct (entry curdir p) as [[q|]|e] eqn:E; [| |discriminate].
  - destruct (memS (resolve q) acc) eqn:M; cbn [negb andb] in H.
    + right. split; auto. intros x [q' [E' [-> _]]]. apply memS_true in M. congruence.
    + destruct (is_dir q || negb skip) eqn:D.
      * left. exists (resolve q). split; [|split; [apply memS_false; auto|auto]]. exists q. split; auto. split; auto.
        intros ->. rewrite orb_false_r in D. auto.
      * right. split; auto. intros x [q' [E' [_ Hs]]]. apply orb_false_iff in D. destruct D as [D1 D2]. apply negb_false_iff in D2.
        assert (q' = q) by congruence. subst. rewrite (Hs eq_refl) in D1. discriminate.
  - right. split; auto. intros x [q [E' _]]. congruence.
Qed.

Lemma loop_spec : forall curdir skip path acc out, NoDup acc -> loop curdir skip path acc = Ok out ->
  NoDup out /\ (exists tl, out = acc ++ tl) /\
  (forall x, In x out <-> In x acc \/ exists p, In p path /\ denotes curdir skip p x).
Proof.
  intros curdir skip. induction path as [|p r IH]; intros acc out ND H.
  - injection H as <-. split; auto. split; [exists []; rewrite app_nil_r; auto|]. intros x. split; auto. intros [?|[p [[] _]]]; auto.
  - apply step_cases in H. destruct H as [[y [D [N H]]]|[D H]].
    + apply IH in H.
      2: { apply NoDup_app_intro; auto; [repeat constructor; intros []|]. intros z Hz [<-|[]]. contradiction. }
      destruct H as [H1 [[tl H2] H3]]. split; auto. split; [exists (y :: tl); rewrite H2, <- app_assoc; auto|].
      intros x. rewrite H3, in_app_iff. cbn [In]. split.
      * intros [[?|[<-|[]]]|[p' [? ?]]]; eauto.
      * intros [?|[p' [[<-|?] Dx]]]; eauto. left. right. left. destruct D as [q [E [-> _]]]. destruct Dx as [q' [E' [-> _]]]. congruence.
    + apply IH in H; auto. destruct H as [H1 [H2 H3]]. split; auto. split; auto. intros x. rewrite H3. split.
      * intros [?|[p' [? ?]]]; eauto. right. exists p'. split; [right|]; auto.
      * intros [?|[p' [[<-|?] Dx]]]; eauto.
Qed.

(* The absolute search path lists every directory named by an entry once and nothing else; only an empty entry
   raises an exception. *)
Theorem search_path_exact : forall path curdir skip,
  (In EmptyString path <-> search path curdir skip = Err EmptyPathEntry) /\
  (forall out, search path curdir skip = Ok out -> NoDup out /\ forall x, In x out <-> exists p, In p path /\ denotes curdir skip p x).
Proof.
  intros path curdir skip. unfold absolute_search_path. split; [symmetry; apply loop_error|].
  intros out H. apply loop_spec in H; [|constructor]. destruct H as [H1 [_ H3]]. split; auto. intros x. rewrite H3. cbn [In]. tauto.
Qed.

(* Order: a directory follows exactly the directories named by the entries in front of the first entry naming it. *)
Theorem search_path_order : forall path curdir skip out pre x post, search path curdir skip = Ok out -> out = pre ++ x :: post ->
  exists path1 p path2, path = path1 ++ p :: path2 /\ denotes curdir skip p x /\
  forall y, In y pre <-> exists p', In p' path1 /\ denotes curdir skip p' y.
Proof.
  intros path curdir skip out pre x post H Eo. unfold absolute_search_path in H.
  assert (G : forall path acc, NoDup acc -> loop curdir skip path acc = Ok out -> (exists d, pre = acc ++ d) ->
    exists path1 p path2, path = path1 ++ p :: path2 /\ denotes curdir skip p x /\
    forall y, In y pre <-> In y acc \/ exists p', In p' path1 /\ denotes curdir skip p' y).
  { clear H path. induction path as [|p r IH]; intros acc ND H [d Ed].
    - injection H as H. exfalso. rewrite Eo, Ed in H. apply (f_equal (@length _)) in H. rewrite !app_length in H. cbn in H. lia.
    - apply step_cases in H. destruct H as [[y [D [N H]]]|[D H]].
      + assert (ND' : NoDup (acc ++ [y])).
        { apply NoDup_app_intro; auto; [repeat constructor; intros []|]. intros z Hz [<-|[]]. contradiction. }
        destruct (loop_spec _ _ _ _ _ ND' H) as [_ [[tl Et] _]].
        rewrite Eo, Ed, <- !app_assoc in Et. apply app_inv_head in Et. destruct d as [|d0 d].
        * cbn in Et. injection Et as -> _. exists [], p, r. split; auto. split; auto. intros z. rewrite Ed, app_nil_r. split; auto.
          intros [?|[p' [[] _]]]; auto.
        * cbn in Et. injection Et as -> Et. destruct (IH (acc ++ [y]) ND' H) as [p1 [p0 [p2 [E1 [E2 E3]]]]].
          { exists d. rewrite Ed, <- app_assoc. auto. }
          exists (p :: p1), p0, p2. split; [rewrite E1; auto|]. split; auto. intros z. rewrite E3, in_app_iff. cbn [In]. split.
          -- intros [[?|[<-|[]]]|[p' [? ?]]]; eauto.
          -- intros [?|[p' [[<-|?] Dz]]]; eauto. left. right. left. destruct D as [q [Eq [-> _]]]. destruct Dz as [q' [Eq' [-> _]]]. congruence.
      + destruct (IH acc ND H (ex_intro _ d Ed)) as [p1 [p0 [p2 [E1 [E2 E3]]]]].
        exists (p :: p1), p0, p2. split; [rewrite E1; auto|]. split; auto. intros z. rewrite E3. cbn [In]. split.
        * intros [?|[p' [? ?]]]; eauto.
        * intros [?|[p' [[<-|?] Dz]]]; eauto. }
  destruct (G path [] (NoDup_nil _) H (ex_intro _ pre eq_refl)) as [p1 [p0 [p2 [E1 [E2 E3]]]]].
  exists p1, p0, p2. split; auto. split; auto. intros y. rewrite E3. cbn [In]. tauto.
Qed.

(* An absolute search path does not change when it is made absolute again. *)
Theorem search_path_idempotent : forall path curdir skip out,
  (forall x, resolve (resolve x) = resolve x) -> (forall x, is_dir (resolve x) = is_dir x) ->
  (forall x, exists r, resolve x = String "/" r) -> (forall x, ~ occurs "package:" (resolve x) /\ ~ occurs "topology:" (resolve x)) ->
  search path curdir skip = Ok out -> search out curdir skip = Ok out.
Proof.
  intros path curdir skip out R1 R2 R3 R4 H. destruct (proj2 (search_path_exact path curdir skip) out H) as [ND Ex].
  assert (A : forall x, In x out -> entry curdir x = Ok (Some x) /\ resolve x = x /\ (is_dir x || negb skip = true)).
  { intros x Hx. apply Ex in Hx. destruct Hx as [p [_ [q [_ [-> Hd]]]]]. destruct (R3 q) as [r Er]. destruct (R4 q) as [O1 O2]. split; [|split].
    - unfold entry_path. rewrite <- contains_spec in O1, O2. destruct (contains "package:" (resolve q)); [congruence|].
      destruct (contains "topology:" (resolve q)); [congruence|]. rewrite Er. reflexivity.
    - apply R1.
    - rewrite R2. destruct skip; [rewrite (Hd eq_refl)|apply orb_true_r]. auto. }
  unfold absolute_search_path. clear Ex H.
  assert (G : forall l acc, NoDup (acc ++ l) -> (forall x, In x l -> In x out) -> loop curdir skip l acc = Ok (acc ++ l)).
  { induction l as [|x l IH]; intros acc NDl Hl; [rewrite app_nil_r; auto|]. cbn [search_loop].
    destruct (A x (Hl x (or_introl eq_refl))) as [-> [-> ->]].
    assert (M : memS x acc = false).
    { apply memS_false. intros C. apply NoDup_remove_2 in NDl. apply NDl. apply in_app_iff. auto. }
    rewrite M. cbn [negb andb]. rewrite IH; [rewrite <- app_assoc; auto|rewrite <- app_assoc; auto|intros y Hy; apply Hl; right; auto]. }
  apply (G out []); auto.
Qed.

(* What entries stand for *)
Theorem entry_plain : forall curdir p c r, p = String c r -> ~ occurs "package:" p -> ~ occurs "topology:" p -> c <> "~"%char ->
  entry curdir p = Ok (Some (if Ascii.eqb c "." || Ascii.eqb c "/" then p else (curdir ++ "/" ++ p)%string)).
Proof.
  intros curdir p c r E O1 O2 N. unfold entry_path. rewrite <- contains_spec in O1, O2.
  destruct (contains "package:" p); [congruence|]. destruct (contains "topology:" p); [congruence|]. subst p.
  cbn [starts_with]. destruct (Ascii.eqb_spec "~" c) as [C|_]; [congruence|]. unfold is_slash.
  destruct (Ascii.eqb c ".") eqn:E1; [auto|]. destruct (Ascii.eqb c "/") eqn:E2; [auto|]. unfold path_join, starts_with, is_slash. rewrite E2. reflexivity.
Qed.

Theorem entry_no_topology : forall curdir p, topo = None -> ~ occurs "package:" p -> occurs "topology:" p -> entry curdir p = Ok None.
Proof.
  intros curdir p E O1 O2. unfold entry_path. rewrite <- contains_spec in O1, O2. destruct (contains "package:" p); [congruence|]. rewrite O2, E. auto.
Qed.
End Env.

(* ------------------------------------------------------------------ *)
(* str.replace and the topology directory                               *)

Lemma replace_none : forall old new s, old <> EmptyString -> ~ occurs old s -> replace_str old new s = s.
Proof.
  intros old new s Ne. unfold replace_str. induction s as [|c r IH]; intros N; [reflexivity|]. cbn [replace_from].
  destruct (prefix old (String c r)) eqn:P.
  - exfalso. apply N. apply prefix_spec in P. destruct P as [b ->]. exists EmptyString, b. auto.
  - rewrite IH; auto. intros [a [b E]]. apply N. exists (String c a), b. rewrite E. auto.
Qed.

Lemma replace_skip : forall old new a b, replace_from old new (String.length a) (a ++ b)%string = replace_from old new 0 b.
Proof. induction a as [|c a IH]; intros b; [reflexivity|]. cbn [String.length append replace_from]. apply IH. Qed.

Lemma replace_head : forall old new b, old <> EmptyString -> replace_str old new (old ++ b)%string = (new ++ replace_str old new b)%string.
Proof.
  intros old new b Ne. unfold replace_str. destruct old as [|c o]; [congruence|].
  assert (P : prefix (String c o) (String c o ++ b)%string = true) by (apply prefix_spec; eauto).
  change (String c o ++ b)%string with (String c (o ++ b)%string) in *. cbn [replace_from]. rewrite P.
  change (String.length (String c o) - 1) with (String.length o - 0). rewrite Nat.sub_0_r, replace_skip. auto.
Qed.

(* An entry "topology:x" is directory x next to the topology file. *)
Theorem entry_topology : forall expanduser moddir t curdir rest, prefix "package:" t = false ->
  ~ occurs "package:" ("topology:" ++ rest) -> ~ occurs "topology:" rest ->
  entry_path expanduser moddir (Some t) curdir ("topology:" ++ rest)%string = Ok (Some ((dirname t ++ "/") ++ rest)%string).
Proof.
  intros expanduser moddir t curdir rest P O1 O2. unfold entry_path. rewrite <- contains_spec in O1.
  destruct (contains "package:" ("topology:" ++ rest)); [congruence|].
  assert (C : contains "topology:" ("topology:" ++ rest) = true) by (apply contains_spec; exists EmptyString, rest; auto).
  rewrite C, P, replace_head by discriminate. rewrite replace_none by (auto; discriminate). auto.
Qed.

(* An entry "package:x" is directory x of the netlab package. *)
Theorem entry_package : forall expanduser moddir topo curdir rest, ~ occurs "package:" rest ->
  entry_path expanduser moddir topo curdir ("package:" ++ rest)%string
  = Ok (Some (if starts_with (Ascii.eqb "/") rest then rest else (moddir ++ "/" ++ rest)%string)).
Proof.
  intros expanduser moddir topo curdir rest O. unfold entry_path.
  assert (C : contains "package:" ("package:" ++ rest) = true) by (apply contains_spec; exists EmptyString, rest; auto).
  rewrite C. unfold expand_package. rewrite replace_head by discriminate. rewrite replace_none by (auto; discriminate). cbn [append].
  unfold path_join. destruct rest as [|c r]; auto.
Qed.

(* dirname: everything in front of the last slash *)
Lemma head_none : forall s, no_char "/" s -> head_part s = EmptyString.
Proof.
  induction s as [|c r IH]; intros N; auto. apply no_char_cons in N. destruct N as [N1 N2]. cbn [head_part]. rewrite IH by auto.
  unfold is_slash. destruct (Ascii.eqb_spec c "/"); congruence.
Qed.

Lemma head_app : forall a b, no_char "/" b -> head_part (a ++ String "/" b)%string = (a ++ "/")%string.
Proof.
  induction a as [|c r IH]; intros b N.
  - cbn [append head_part]. rewrite head_none by auto. reflexivity.
  - cbn [append head_part]. rewrite IH by auto. destruct (r ++ "/")%string as [|h t] eqn:E; auto. destruct r; discriminate.
Qed.

Lemma rstrip_last : forall f a c, f c = false -> forall d, f d = true ->
  rstrip f (a ++ String c (String d EmptyString))%string = (a ++ String c EmptyString)%string.
Proof.
  intros f a c Fc d Fd. induction a as [|x a IH].
  - cbn [append rstrip]. rewrite Fd, Fc. auto.
  - cbn [append rstrip]. rewrite IH. destruct (a ++ String c EmptyString)%string as [|y z] eqn:E; auto. destruct a; discriminate.
Qed.

Theorem dirname_spec : forall a c b, c <> "/"%char -> no_char "/" b ->
  dirname (a ++ String c (String "/" b))%string = (a ++ String c EmptyString)%string
  /\ dirname (String "/" b) = "/" /\ dirname b = EmptyString.
Proof.
  intros a c b Nc Nb. split; [|split].
  - unfold dirname.
    assert (E : head_part (a ++ String c (String "/" b))%string = (a ++ String c (String "/" EmptyString))%string).
    { change (String c (String "/" b)) with (String c EmptyString ++ String "/" b)%string. rewrite <- append_assoc, head_app by auto. rewrite append_assoc. auto. }
    rewrite E. assert (Sc : is_slash c = false) by (unfold is_slash; destruct (Ascii.eqb_spec c "/"); congruence).
    assert (A : all_chars is_slash (a ++ String c (String "/" EmptyString))%string = false).
    { clear E. induction a as [|x a IH]; cbn [append all_chars]; [rewrite Sc; auto|]. rewrite IH. apply andb_false_r. }
    rewrite A. apply rstrip_last; auto.
  - unfold dirname. change (String "/" b) with (EmptyString ++ String "/" b)%string. rewrite head_app by auto. reflexivity.
  - unfold dirname. rewrite head_none; auto.
Qed.

(* A search path entry below the directory of a topology read from the package, or of a topology named without a
   directory, is not the directory next to the topology file. *)
Theorem entry_topology_refuted : forall expanduser moddir curdir,
  entry_path expanduser moddir (Some "package:cli/empty.yml") curdir "topology:validate" = Ok (Some (moddir ++ "/cli")%string)
  /\ entry_path expanduser moddir (Some "lab.yml") curdir "topology:validate" = Ok (Some "/validate").
Proof. intros. split; reflexivity. Qed.

(* ------------------------------------------------------------------ *)
(* File lookup                                                          *)

(* Candidate files: absolute names are used as they are, directories are separated with exactly one slash. *)
Theorem os_join_spec : forall a c b, c <> "/"%char -> starts_with (Ascii.eqb "/") b = false ->
  os_join (a ++ String c EmptyString) b = (a ++ String c ("/" ++ b))%string
  /\ os_join (a ++ "/") b = (a ++ "/" ++ b)%string /\ os_join EmptyString b = b /\ os_join (a ++ String c EmptyString) (String "/" b) = String "/" b.
Proof.
  intros a c b N Sb. assert (Sb' : starts_with is_slash b = false) by (destruct b; auto; cbn [starts_with] in *; unfold is_slash; rewrite Ascii.eqb_sym; auto).
  assert (E : forall a d, ends_slash (a ++ String d EmptyString)%string = is_slash d).
  { clear. induction a as [|x a IH]; intros d; [reflexivity|]. cbn [append]. destruct a as [|y a]; [cbn; auto|]. cbn [append] in *. rewrite <- (IH d). reflexivity. }
  assert (Ne : forall a d, String.eqb (a ++ String d EmptyString)%string EmptyString = false) by (intros a' d; destruct a'; reflexivity).
  unfold os_join. rewrite Sb'. split; [|split; [|split]].
  - rewrite Ne, E. unfold is_slash. destruct (Ascii.eqb_spec c "/"); [congruence|]. cbn [orb]. rewrite append_assoc. auto.
  - rewrite Ne, E. cbn. rewrite append_assoc. auto.
  - reflexivity.
  - reflexivity.
Qed.

Theorem find_file_first : forall ex path dirs c, find_file ex path dirs = Some c <->
  exists pre d post, dirs = pre ++ d :: post /\ c = os_join d path /\ ex c = true /\ forall d', In d' pre -> ex (os_join d' path) = false.
Proof.
  intros ex path. induction dirs as [|d dirs IH]; intros c; cbn [find_file].
  - split; [discriminate|]. intros [pre [d [post [E _]]]]. destruct pre; discriminate.
  - destruct (ex (os_join d path)) eqn:X.
    + split.
      * intros E. injection E as <-. exists [], d, dirs. split; auto. split; auto. split; auto. intros d' [].
      * intros [pre [d1 [post [E [-> [X1 F]]]]]]. destruct pre as [|p0 pre]; injection E as -> E; auto.
        rewrite (F p0 (or_introl eq_refl)) in X. discriminate.
    + rewrite IH. split.
      * intros [pre [d1 [post [-> [-> [X1 F]]]]]]. exists (d :: pre), d1, post. split; auto. split; auto. split; auto. intros d' [<-|H]; auto.
      * intros [pre [d1 [post [E [-> [X1 F]]]]]]. destruct pre as [|p0 pre]; injection E as -> E; [congruence|].
        exists pre, d1, post. split; auto. split; auto. split; auto. intros d' H. apply F. right. auto.
Qed.

Theorem find_file_none : forall ex path dirs, find_file ex path dirs = None <-> forall d, In d dirs -> ex (os_join d path) = false.
Proof.
  intros ex path dirs. split.
  - induction dirs as [|d dirs IH]; intros H d' Hd; [destruct Hd|]. cbn [find_file] in H. destruct (ex (os_join d path)) eqn:X; [discriminate|].
    destruct Hd as [<-|Hd]; auto.
  - intros H. destruct (find_file ex path dirs) as [c|] eqn:E; auto. apply find_file_first in E.
    destruct E as [pre [d [post [-> [-> [X _]]]]]]. rewrite H in X; [discriminate|]. apply in_app_iff. right. left. auto.
Qed.

Example files_case :
  absolute_search_path (fun x => x) (fun x => negb (String.eqb x "/lab/templates")) (fun _ => "/home/u") "/pkg" (Some "/lab/t.yml")
    ["topology:templates"; "topology:"; "~"; "package:extra"; "/lab/"; "x"] "/cur" true = Ok ["/lab/"; "/home/u"; "/pkg/extra"; "/cur/x"]
  /\ find_file (fun f => memS f ["/b/t.j2"; "/c/t.j2"]) "t.j2" ["/a"; "/b"; "/c"] = Some "/b/t.j2"
  /\ absolute_search_path (fun x => x) (fun x => true) (fun x => x) "/pkg" None [""] "/cur" true = Err EmptyPathEntry.
Proof. repeat split; reflexivity. Qed.

(* Entries in the home directory are expanded. *)
Theorem entry_home : forall expanduser moddir topo curdir r, ~ occurs "package:" (String "~" r) -> ~ occurs "topology:" (String "~" r) ->
  entry_path expanduser moddir topo curdir (String "~" r) = Ok (Some (expanduser (String "~" r))).
Proof.
  intros expanduser moddir topo curdir r O1 O2. unfold entry_path. rewrite <- contains_spec in O1, O2.
  destruct (contains "package:" (String "~" r)); [congruence|]. destruct (contains "topology:" (String "~" r)); [congruence|]. reflexivity.
Qed.

Example entry_home_case : forall ex md t cd, entry_path ex md t cd "~/.netlab" = Ok (Some (ex "~/.netlab")).
Proof. reflexivity. Qed.

Print Assumptions search_path_exact.
Print Assumptions search_path_order.
Print Assumptions search_path_idempotent.
Print Assumptions entry_plain.
Print Assumptions entry_no_topology.
Print Assumptions entry_topology.
Print Assumptions entry_package.
Print Assumptions dirname_spec.
Print Assumptions entry_topology_refuted.
Print Assumptions os_join_spec.
Print Assumptions find_file_first.
Print Assumptions find_file_none.
Print Assumptions entry_home.
