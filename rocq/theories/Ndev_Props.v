(* Providers, devices, images, loopbacks and modules of nodes. *)
From Coq Require Import String Ascii ZArith Lia Bool List Permutation.
From Verif Require Import Base Box_Model Box_Props Clone_Model Clone_Props Dev_Model Dev_Props Sort_Model Mod_Model Mod_Props Imp_Props Ndev_Model.
Import ListNotations.
Local Open Scope string_scope.
Local Open Scope list_scope.

Lemma veqb_str : forall v s, veqb v (VStr s) = true <-> v = VStr s.
Proof.
  intros v s. split.
  - intros H. apply veqb_true in H. exact H.
  - intros E. subst v. apply veqb_true. reflexivity.
Qed.

Lemma veqb_str_false : forall v s, v <> VStr s -> veqb v (VStr s) = false.
Proof. intros v s N. destruct (veqb v (VStr s)) eqn:E; [|reflexivity]. apply veqb_str in E. contradiction. Qed.

(* ---- provider of a node ---- *)

(* provider [p] can be used in a lab run by [tp] *)
Definition usable (tp : string) (provs : dict val) (p : string) : Prop :=
  (exists v, dget p provs = Some v) /\ exists d w, dget tp provs = Some (VDict d) /\ dget p d = Some w.

Definition provider_fine (tp : string) (provs n : dict val) : Prop :=
  dget "provider" n = None \/ dget "provider" n = Some (VStr tp) \/
  exists p, dget "provider" n = Some (VStr p) /\ usable tp provs p.

Lemma usable_iff : forall tp provs p, dmem p provs = true /\ dmem p (rdd tp provs) = true <-> usable tp provs p.
Proof.
  intros tp provs p. unfold usable. split.
  - intros [A B]. split.
    + unfold dmem in A. destruct (dget p provs) as [v|]; [exists v; reflexivity|discriminate A].
    + unfold rdd, rd in B. destruct (dget tp provs) as [w|] eqn:G; [|discriminate B].
      destruct w as [|b|z|s|l|d]; try discriminate B. cbn [entries] in B. unfold dmem in B.
      destruct (dget p d) as [x|] eqn:Q; [|discriminate B]. exists d, x. auto.
  - intros [[v A] [d [w [B C]]]]. split; unfold dmem.
    + rewrite A. reflexivity.
    + unfold rdd, rd. rewrite B. cbn [entries]. rewrite C. reflexivity.
Qed.

(* The provider of a node is accepted when it is missing, is the topology provider, or is a known provider the topology provider can be
   combined with; only the topology provider is removed, and only other providers are recorded. *)
Theorem node_provider_exact : forall tp provs n used n' used' e, validate_node_provider tp provs n used = (n', used', e) ->
  (e = None <-> provider_fine tp provs n) /\
  (forall k, k <> "provider" -> dget k n' = dget k n) /\
  (dget "provider" n = Some (VStr tp) -> dget "provider" n' = None) /\
  (dget "provider" n <> Some (VStr tp) -> n' = n) /\
  (forall p, dget p used' = Some true <->
             dget p used = Some true \/ (e = None /\ dget "provider" n = Some (VStr p) /\ p <> tp)) /\
  (e = Some EUnknownProvider <->
     (exists v, dget "provider" n = Some v /\ v <> VStr tp /\ forall p, v = VStr p -> dget p provs = None)).
Proof.
  intros tp provs n used n' used' e H. unfold validate_node_provider in H. unfold provider_fine.
  destruct (dget "provider" n) as [v|] eqn:G.
  2:{ injection H as E1 E2 E3. subst n' used' e. split; [split; [intros _; left; reflexivity|reflexivity]|].
      split; [reflexivity|]. split; [intros Q; discriminate Q|]. split; [reflexivity|]. split.
      - intros p. split; [intros Q; left; exact Q|]. intros [Q|[_ [Q _]]]; [exact Q|discriminate Q].
      - split; [intros Q; discriminate Q|]. intros [w [Q _]]. discriminate Q. }
  destruct (veqb v (VStr tp)) eqn:V.
  - apply veqb_str in V. subst v. injection H as E1 E2 E3. subst n' used' e.
    split; [split; [intros _; right; left; reflexivity|reflexivity]|].
    split; [intros k N; apply dget_dpop_other; exact N|]. split; [intros _; apply dget_dpop_same|].
    split; [intros N; exfalso; apply N; reflexivity|]. split.
    + intros p. split; [intros Q; left; exact Q|]. intros [Q|[_ [Q N]]]; [exact Q|]. injection Q as Q. exfalso. apply N. symmetry. exact Q.
    + split; [intros Q; discriminate Q|]. intros [w [Q [N _]]]. injection Q as Q. subst w. exfalso. apply N. reflexivity.
  - assert (NV : v <> VStr tp). { intros Q. apply veqb_str in Q. rewrite Q in V. discriminate V. }
    assert (S : n' = n /\ ((exists p, v = VStr p /\ usable tp provs p /\ used' = dset p true used /\ e = None) \/
                           ((~ exists p, v = VStr p /\ usable tp provs p) /\ used' = used /\
                            ((e = Some EUnknownProvider /\ forall p, v = VStr p -> dget p provs = None) \/
                             (e = Some EIncompatible /\ exists p x, v = VStr p /\ dget p provs = Some x))))).
    { destruct v as [|b|z|p|l|d];
        try (injection H as E1 E2 E3; subst n' used' e; split; [reflexivity|]; right; split;
             [intros [q [Q _]]; discriminate Q|split; [reflexivity|left; split; [reflexivity|intros q Q; discriminate Q]]]).
      destruct (dmem p provs) eqn:M1; cbn [negb] in H.
      - destruct (dmem p (rdd tp provs)) eqn:M2; cbn [negb] in H; injection H as E1 E2 E3; subst n' used' e; (split; [reflexivity|]).
        + left. exists p. split; [reflexivity|]. split; [apply usable_iff; auto|]. auto.
        + right. split; [|split; [reflexivity|]].
          * intros [q [Q U]]. injection Q as Q. subst q. apply usable_iff in U. rewrite M2 in U. destruct U as [_ U]. discriminate U.
          * right. split; [reflexivity|]. unfold dmem in M1. destruct (dget p provs) as [x|] eqn:X; [|discriminate M1]. exists p, x. auto.
      - injection H as E1 E2 E3. subst n' used' e. split; [reflexivity|]. right. split; [|split; [reflexivity|]].
        + intros [q [Q U]]. injection Q as Q. subst q. apply usable_iff in U. rewrite M1 in U. destruct U as [U _]. discriminate U.
        + left. split; [reflexivity|]. intros q Q. injection Q as Q. subst q. unfold dmem in M1. destruct (dget p provs); [discriminate M1|reflexivity]. }
    clear H. destruct S as [S1 S2]. subst n'.
    assert (NS : Some v <> Some (VStr tp)) by (intros Q; apply NV; injection Q as Q; exact Q).
    destruct S2 as [[p [E1 [E2 [E3 E4]]]]|[NU [E1 E2]]].
    + subst v used' e. split; [split; [intros _; right; right; exists p; auto|reflexivity]|]. split; [reflexivity|].
      split; [intros Q; contradiction|]. split; [reflexivity|]. split.
      * intros q. destruct (string_dec q p) as [E|N].
        { subst q. rewrite dget_dset_same. split; [|reflexivity]. intros _. right. split; [reflexivity|]. split; [reflexivity|]. intros Q. apply NV. subst p. reflexivity. }
        { rewrite dget_dset_other by exact N. split; [intros Q; left; exact Q|]. intros [Q|[_ [Q _]]]; [exact Q|]. exfalso. apply N. injection Q as Q. symmetry. exact Q. }
      * split; [intros Q; discriminate Q|]. intros [w [Q [_ A]]]. injection Q as Q. subst w. destruct E2 as [[x X] _]. rewrite (A p eq_refl) in X. discriminate X.
    + subst used'.
      assert (NE : e <> None). { destruct E2 as [[Q _]|[Q _]]; rewrite Q; discriminate. }
      split. { split; [intros Q; contradiction|]. intros [Q|[Q|[p [Q U]]]]; [discriminate Q|contradiction|]. injection Q as Q. exfalso. apply NU. exists p. auto. }
      split; [reflexivity|]. split; [intros Q; contradiction|]. split; [reflexivity|]. split.
      * intros p. split; [intros Q; left; exact Q|]. intros [Q|[Q _]]; [exact Q|contradiction].
      * destruct E2 as [[Q A]|[Q [p [x [P X]]]]]; subst e.
        { split; [|reflexivity]. intros _. exists v. split; [reflexivity|]. split; [exact NV|exact A]. }
        { split; [intros Q; discriminate Q|]. intros [w [Q [_ A]]]. injection Q as Q. subst w. rewrite (A p P) in X. discriminate X. }
Qed.

Example node_provider_case :
  let provs := [("libvirt", VDict [("clab", VBool true)]); ("clab", VDict []); ("virtualbox", VDict [])] in
  validate_node_provider "libvirt" provs [("provider", VStr "clab"); ("id", VInt 3)] [] =
    ([("provider", VStr "clab"); ("id", VInt 3)], [("clab", true)], None) /\
  validate_node_provider "libvirt" provs [("provider", VStr "libvirt"); ("id", VInt 3)] [] = ([("id", VInt 3)], [], None) /\
  validate_node_provider "libvirt" provs [("provider", VStr "virtualbox")] [] = ([("provider", VStr "virtualbox")], [], Some EIncompatible) /\
  validate_node_provider "libvirt" provs [("provider", VStr "none")] [] = ([("provider", VStr "none")], [], Some EUnknownProvider).
Proof. vm_compute. repeat split; reflexivity. Qed.

(* ---- device of a node ---- *)

(* the device of a node *)
Definition wanted_device (def : option val) (n : dict val) (v : val) : Prop :=
  dget "device" n = Some v \/ (dget "device" n = None /\ (def = Some v \/ (def = None /\ v = VDict []))).

Lemma force_get : forall tp dd n k, k <> "provider" -> dget k (force_provider tp dd n) = dget k n.
Proof.
  intros tp dd n k N. unfold force_provider. destruct (dget "provider" dd) as [v|]; [|reflexivity].
  destruct (veqb v (VStr tp)); [reflexivity|]. apply dget_dset_other. exact N.
Qed.
Lemma module_get : forall dd n k, k <> "module" -> dget k (device_module dd n) = dget k n.
Proof.
  intros dd n k N. unfold device_module. destruct (lookup ["node"; "module"] (VDict dd)) as [v|]; [|reflexivity].
  destruct (truthy v && negb (dmem "module" n)); [|reflexivity]. apply dget_dset_other. exact N.
Qed.

(* A node is accepted exactly when its device (or the default device) is the name of a known device. *)
Theorem node_device_accepted : forall tp def devs n attrs n' attrs' e, find_node_device tp def devs n attrs = (n', attrs', e) ->
  (e = None <-> exists s dd, wanted_device def n (VStr s) /\ s <> "" /\ dget s devs = Some dd) /\
  (e = Some ENoDevice <-> exists v, wanted_device def n v /\ truthy v = false) /\
  (e = Some EBadDevice <-> exists v, wanted_device def n v /\ truthy v = true /\ forall s, v = VStr s -> dget s devs = None) /\
  (forall v, wanted_device def n v -> dget "device" n' = Some v) /\
  (e <> None -> attrs' = attrs /\ forall k, k <> "device" -> dget k n' = dget k n).
Proof.
  intros tp def devs n attrs n' attrs' e H. unfold find_node_device in H.
  set (n1 := if dmem "device" n then n else dset "device" (match def with Some v => v | None => empty_box end) n) in *.
  assert (W : exists v, dget "device" n1 = Some v /\ forall w, wanted_device def n w <-> w = v).
  { unfold n1, dmem, wanted_device. destruct (dget "device" n) as [v|] eqn:G.
    - exists v. split; [exact G|]. intros w. split; [intros [Q|[Q _]]; [injection Q as Q; symmetry; exact Q|discriminate Q]|intros Q; subst w; left; reflexivity].
    - exists (match def with Some v => v | None => empty_box end). split; [apply dget_dset_same|]. intros w. destruct def as [x|].
      + split; [intros [Q|[_ [Q|[Q _]]]]; [discriminate Q|injection Q as Q; symmetry; exact Q|discriminate Q]|intros Q; subst w; right; auto].
      + split; [intros [Q|[_ [Q|[_ Q]]]]; [discriminate Q|discriminate Q|exact Q]|intros Q; subst w; right; auto]. }
  assert (O : forall k, k <> "device" -> dget k n1 = dget k n).
  { intros k N. unfold n1. destruct (dmem "device" n); [reflexivity|]. apply dget_dset_other. exact N. }
  clearbody n1. destruct W as [v [V W]]. unfold rd in H. rewrite V in H.
  destruct (truthy v) eqn:T; cbn [negb] in H.
  2:{ injection H as E1 E2 E3. subst n' attrs' e. split.
      { split; [intros Q; discriminate Q|]. intros [s [dd [A [B _]]]]. apply W in A. subst v. cbn [truthy] in T. destruct (String.eqb s "") eqn:S; [|discriminate T]. apply String.eqb_eq in S. contradiction. }
      split. { split; [intros _; exists v; split; [apply W; reflexivity|exact T]|reflexivity]. }
      split. { split; [intros Q; discriminate Q|]. intros [w [A [B _]]]. apply W in A. subst w. rewrite T in B. discriminate B. }
      split. { intros w A. apply W in A. subst w. exact V. }
      intros _. split; [reflexivity|exact O]. }
  assert (BAD : (forall s, v = VStr s -> dget s devs = None) -> (n', attrs', e) = (n1, attrs, Some EBadDevice) ->
    (e = None <-> exists s dd, wanted_device def n (VStr s) /\ s <> "" /\ dget s devs = Some dd) /\
    (e = Some ENoDevice <-> exists v, wanted_device def n v /\ truthy v = false) /\
    (e = Some EBadDevice <-> exists v, wanted_device def n v /\ truthy v = true /\ forall s, v = VStr s -> dget s devs = None) /\
    (forall v, wanted_device def n v -> dget "device" n' = Some v) /\
    (e <> None -> attrs' = attrs /\ forall k, k <> "device" -> dget k n' = dget k n)).
  { intros A Q. injection Q as E1 E2 E3. subst n' attrs' e. split.
    { split; [intros Q; discriminate Q|]. intros [s [dd [B [_ C]]]]. apply W in B. symmetry in B. rewrite (A s B) in C. discriminate C. }
    split. { split; [intros Q; discriminate Q|]. intros [w [B C]]. apply W in B. subst w. rewrite T in C. discriminate C. }
    split. { split; [intros _; exists v; split; [apply W; reflexivity|auto]|reflexivity]. }
    split. { intros w B. apply W in B. subst w. exact V. }
    intros _. split; [reflexivity|exact O]. }
  destruct v as [|b|z|s|l|d]; try (apply BAD; [intros q Q; discriminate Q|symmetry; exact H]).
  unfold dmem in H. destruct (dget s devs) as [dd|] eqn:D.
  2:{ apply BAD; [intros q Q; injection Q as Q; subst q; exact D|symmetry; exact H]. }
  clear BAD. injection H as E1 E2 E3. subst e n'. split.
  { split; [|reflexivity]. intros _. exists s, dd. split; [apply W; reflexivity|]. split; [|exact D]. intros Q. subst s. discriminate T. }
  split. { split; [intros Q; discriminate Q|]. intros [w [B C]]. apply W in B. subst w. rewrite T in C. discriminate C. }
  split. { split; [intros Q; discriminate Q|]. intros [w [B [_ C]]]. apply W in B. subst w. rewrite (C s eq_refl) in D. discriminate D. }
  split. { intros w B. apply W in B. subst w. rewrite module_get by discriminate. rewrite force_get by discriminate. exact V. }
  intros Q. exfalso. apply Q. reflexivity.
Qed.

(* An accepted node gets the provider of its device when it differs from the topology provider, the module list of its device when it has
   none, and the attributes of the device are added to known attributes. *)
Theorem node_device_data_exact : forall tp def devs n attrs n' attrs' s dd,
  find_node_device tp def devs n attrs = (n', attrs', None) -> wanted_device def n (VStr s) -> dget s devs = Some (VDict dd) ->
  dget "provider" n' = match dget "provider" dd with
                       | Some v => if veqb v (VStr tp) then dget "provider" n else Some v
                       | None => dget "provider" n
                       end /\
  (forall m, dget "module" n = Some m -> dget "module" n' = Some m) /\
  (dget "module" n = None -> forall m, dget "module" n' = Some m <-> lookup ["node"; "module"] (VDict dd) = Some m /\ truthy m = true) /\
  (forall k, k <> "provider" -> k <> "module" -> k <> "device" -> dget k n' = dget k n) /\
  attrs' = match dget "attributes" dd with Some a => merge attrs a | None => attrs end.
Proof.
  intros tp def devs n attrs n' attrs' s dd H WD D.
  assert (ACC := node_device_accepted _ _ _ _ _ _ _ _ H). destruct ACC as [_ [_ [_ [DEV _]]]].
  unfold find_node_device in H.
  set (n1 := if dmem "device" n then n else dset "device" (match def with Some v => v | None => empty_box end) n) in *.
  assert (V : dget "device" n1 = Some (VStr s)).
  { unfold n1, dmem. destruct WD as [G|[G [E|[_ E]]]]; [|subst def|discriminate E]; rewrite G; [exact G|apply dget_dset_same]. }
  assert (O : forall k, k <> "device" -> dget k n1 = dget k n).
  { intros k N. unfold n1. destruct (dmem "device" n); [reflexivity|]. apply dget_dset_other. exact N. }
  clearbody n1. unfold rd in H. rewrite V in H. destruct (truthy (VStr s)); cbn [negb] in H; [|discriminate H].
  unfold dmem, rdd, rd in H. rewrite D in H. cbn [entries] in H. injection H as E1 E2. subst n' attrs'.
  split; [|split; [|split; [|split; [|reflexivity]]]].
  - rewrite module_get by discriminate. unfold force_provider. destruct (dget "provider" dd) as [v|]; [|apply O; discriminate].
    destruct (veqb v (VStr tp)); [apply O; discriminate|apply dget_dset_same].
  - intros m M. unfold device_module.
    assert (F : dget "module" (force_provider tp dd n1) = Some m) by (rewrite force_get by discriminate; rewrite O by discriminate; exact M).
    destruct (lookup ["node"; "module"] (VDict dd)) as [x|]; [|exact F]. unfold dmem. rewrite F. rewrite andb_false_r. exact F.
  - intros M m. assert (F : dget "module" (force_provider tp dd n1) = None) by (rewrite force_get by discriminate; rewrite O by discriminate; exact M).
    unfold device_module. destruct (lookup ["node"; "module"] (VDict dd)) as [x|].
    + unfold dmem. rewrite F. cbn [negb]. rewrite andb_true_r. destruct (truthy x) eqn:T.
      * rewrite dget_dset_same. split; [intros Q; injection Q as Q; subst m; auto|intros [Q _]; exact Q].
      * rewrite F. split; [intros Q; discriminate Q|]. intros [Q R]. injection Q as Q. subst m. rewrite T in R. discriminate R.
    + rewrite F. split; [intros Q; discriminate Q|intros [Q _]; discriminate Q].
  - intros k N1 N2 N3. rewrite module_get by exact N2. rewrite force_get by exact N1. apply O. exact N3.
Qed.

Example node_device_case :
  let devs := [("frr", VDict [("provider", VStr "clab"); ("node", VDict [("module", VList [VStr "routing"])]);
                              ("attributes", VDict [("node", VDict [("frr", VStr "dict")])])]);
               ("eos", VDict [])] in
  find_node_device "libvirt" (Some (VStr "frr")) devs [("id", VInt 1)] (VDict []) =
    ([("id", VInt 1); ("device", VStr "frr"); ("provider", VStr "clab"); ("module", VList [VStr "routing"])],
     VDict [("node", VDict [("frr", VStr "dict")])], None) /\
  snd (find_node_device "libvirt" None devs [("id", VInt 1)] (VDict [])) = Some ENoDevice /\
  snd (find_node_device "libvirt" None devs [("device", VStr "junk")] (VDict [])) = Some EBadDevice /\
  find_node_device "libvirt" (Some (VStr "frr")) devs [("device", VStr "eos"); ("provider", VStr "clab")] (VDict []) =
    ([("device", VStr "eos"); ("provider", VStr "clab")], VDict [], None).
Proof. vm_compute. repeat split; reflexivity. Qed.

(* The provider set by a device replaces the (checked) provider of a node and is never checked itself: the node ends up with a provider
   that cannot be combined with the topology provider, and nothing is reported. *)
Theorem forced_provider_checked_refuted : exists tp defp provs devs n n' s s',
  augment_one tp defp provs None devs n s = (n', s', None) /\ provider_fine tp provs n /\ ~ provider_fine tp provs n'.
Proof.
  exists "libvirt", "libvirt", [("libvirt", VDict [("clab", VBool true)]); ("clab", VDict []); ("virtualbox", VDict [])],
         [("odd", VDict [("provider", VStr "virtualbox"); ("image", VStr "i")])],
         [("device", VStr "odd"); ("provider", VStr "clab")],
         [("device", VStr "odd"); ("provider", VStr "virtualbox"); ("box", VStr "i")], (mk_ns [] (VDict [])), (mk_ns [("clab", true)] (VDict [])).
  split; [vm_compute; reflexivity|]. split.
  - right. right. exists "clab". split; [reflexivity|]. split; [exists (VDict []); reflexivity|]. exists [("clab", VBool true)], (VBool true). auto.
  - intros [Q|[Q|[p [Q [_ [d [w [A B]]]]]]]]; [discriminate Q|discriminate Q|]. injection Q as Q. subst p. injection A as A. subst d. discriminate B.
Qed.

(* ---- image of a node ---- *)

(* the image of a node: its own box, its own image, image of the device, image of the device for a provider *)
Inductive image_from (n dd pdata : dict val) : val -> Prop :=
| From_box v : dget "box" n = Some v -> truthy v = true -> image_from n dd pdata v
| From_image v : (forall b, dget "box" n = Some b -> truthy b = false) -> dget "image" n = Some v -> image_from n dd pdata v
| From_device s : (forall b, dget "box" n = Some b -> truthy b = false) -> dget "image" n = None ->
    dget "image" dd = Some (VStr s) -> image_from n dd pdata (VStr s)
| From_provider s : (forall b, dget "box" n = Some b -> truthy b = false) -> dget "image" n = None ->
    dget "image" dd = None -> dget "image" pdata = Some (VStr s) -> image_from n dd pdata (VStr s).

Lemma pdata_get : forall p pdata n k, k <> p -> dget k (provider_node_data p pdata n) = dget k n.
Proof. intros p pdata n k N. unfold provider_node_data. destruct (dget "node" pdata); [|reflexivity]. apply dget_dset_other. exact N. Qed.

Lemma rd_falsy : forall k n, truthy (rd k n) = false <-> forall b, dget k n = Some b -> truthy b = false.
Proof.
  intros k n. unfold rd. destruct (dget k n) as [v|].
  - split; [intros H b Q; injection Q as Q; subst b; exact H|intros H; apply H; reflexivity].
  - split; [intros _ b Q; discriminate Q|reflexivity].
Qed.

(* The image is taken from the first place that has one, in a fixed order; a node without an image is an error; the attribute naming the
   image is consumed only when it is used; node data of the provider are added below those of the node. *)
Theorem node_image_exact : forall defp devs n n' e s dd p pdata,
  find_node_image defp devs n = (n', e) ->
  dget "device" n = Some (VStr s) -> dget s devs = Some (VDict dd) ->
  (dget "provider" n = Some (VStr p) \/ (dget "provider" n = None /\ p = defp)) ->
  (dget p dd = Some (VDict pdata) \/ (dget p dd = None /\ pdata = [])) ->
  p <> "box" -> p <> "image" ->
  (e = None <-> exists v, image_from n dd pdata v) /\
  (forall v, image_from n dd pdata v -> dget "box" n' = Some v) /\
  dget p n' = match dget "node" pdata with
              | Some d => Some (merge d (match dget p n with Some x => x | None => VDict [] end))
              | None => dget p n
              end /\
  (forall k, k <> "box" -> k <> "image" -> k <> p -> dget k n' = dget k n) /\
  dget "image" n' = (match dget "box" n with Some b => if truthy b then dget "image" n else None | None => None end) /\
  (e = Some ENoImage <-> (forall b, dget "box" n = Some b -> truthy b = false) /\ dget "image" n = None /\ dget "image" dd = None /\ dget "image" pdata = None).
Proof.
  intros defp devs n n' e s dd p pdata H DEV DD PR PD NB NI. unfold find_node_image in H. cbv zeta in H.
  assert (EP : node_provider defp n = p). { unfold node_provider. destruct PR as [Q|[Q E]]; rewrite Q; [reflexivity|symmetry; exact E]. }
  rewrite EP in H. rewrite DEV in H. unfold rdd in H.
  assert (ED : rd s devs = VDict dd) by (unfold rd; rewrite DD; reflexivity). rewrite ED in H. cbn [entries] in H.
  assert (EQ : entries (rd p dd) = pdata). { unfold rd. destruct PD as [Q|[Q E]]; rewrite Q; [reflexivity|]. cbn. symmetry. exact E. }
  rewrite EQ in H. clear EP ED EQ.
  set (n1 := provider_node_data p pdata n) in *.
  assert (B1 : dget "box" n1 = dget "box" n) by (apply pdata_get; intros Q; apply NB; symmetry; exact Q).
  assert (I1 : dget "image" n1 = dget "image" n) by (apply pdata_get; intros Q; apply NI; symmetry; exact Q).
  assert (O1 : forall k, k <> p -> dget k n1 = dget k n) by (intros k N; apply pdata_get; exact N).
  assert (P1 : dget p n1 = match dget "node" pdata with Some d => Some (merge d (match dget p n with Some x => x | None => VDict [] end)) | None => dget p n end).
  { unfold n1, provider_node_data. destruct (dget "node" pdata); [apply dget_dset_same|reflexivity]. }
  clearbody n1.
  assert (R1 : rd "box" n1 = rd "box" n) by (unfold rd; rewrite B1; reflexivity).
  destruct (truthy (rd "box" n1)) eqn:T; rewrite R1 in *.
  - injection H as E1 E2. subst n' e.
    assert (BX : exists b, dget "box" n = Some b /\ truthy b = true). { unfold rd in T. destruct (dget "box" n) as [b|]; [exists b; auto|discriminate T]. }
    destruct BX as [b [BX TB]]. split.
    { split; [|reflexivity]. intros _. exists b. apply From_box; assumption. }
    split. { intros v IF. rewrite B1. destruct IF as [v A B|v A B|x A B C|x A B C D]; [exact A| | |]; exfalso; rewrite (A b BX) in TB; discriminate TB. }
    split; [exact P1|]. split; [intros k _ _ N; apply O1; exact N|]. split; [rewrite I1, BX, TB; reflexivity|].
    split; [intros Q; discriminate Q|]. intros [A _]. exfalso. rewrite (A b BX) in TB. discriminate TB.
  - assert (F := proj1 (rd_falsy _ _) T).
    assert (NIM : (match dget "box" n with Some b => if truthy b then dget "image" n else None | None => None end) = None).
    { destruct (dget "box" n) as [b|] eqn:G; [|reflexivity]. rewrite (F b eq_refl). reflexivity. }
    rewrite NIM. rewrite dget_dset_other in H by discriminate. rewrite I1 in H.
    destruct (dget "image" n) as [v|] eqn:IM.
    + injection H as E1 E2. subst n' e. split. { split; [|reflexivity]. intros _. exists v. apply From_image; assumption. }
      split. { intros w IF. rewrite dget_dpop_other by discriminate. rewrite dget_dset_same. destruct IF as [w A B|w A B|x A B C|x A B C D]; rewrite ?IM in *; try discriminate B.
        - exfalso. rewrite (F w A) in B. discriminate B.
        - congruence. }
      split. { rewrite dget_dpop_other by exact NI. rewrite dget_dset_other by exact NB. rewrite dget_dset_other by exact NB. exact P1. }
      split. { intros k N1 N2 N3. rewrite dget_dpop_other by exact N2. rewrite !dget_dset_other by exact N1. apply O1. exact N3. }
      split; [apply dget_dpop_same|]. split; [intros Q; discriminate Q|intros [_ [Q _]]; discriminate Q].
    + set (n2 := dset "box" (rd "box" n) n1) in *.
      assert (K2 : forall v, (forall k, k <> "box" -> k <> "image" -> k <> p -> dget k (dset "box" v n2) = dget k n) /\
                             dget p (dset "box" v n2) = dget p n1 /\ dget "image" (dset "box" v n2) = None).
      { intros v. split; [|split].
        - intros k N1 N2 N3. rewrite dget_dset_other by exact N1. unfold n2. rewrite dget_dset_other by exact N1. apply O1. exact N3.
        - rewrite dget_dset_other by exact NB. unfold n2. apply dget_dset_other. exact NB.
        - rewrite dget_dset_other by discriminate. unfold n2. rewrite dget_dset_other by discriminate. rewrite I1. reflexivity. }
      assert (K3 : (forall k, k <> "box" -> k <> "image" -> k <> p -> dget k n2 = dget k n) /\ dget p n2 = dget p n1 /\ dget "image" n2 = None).
      { split; [|split].
        - intros k N1 N2 N3. unfold n2. rewrite dget_dset_other by exact N1. apply O1. exact N3.
        - unfold n2. apply dget_dset_other. exact NB.
        - unfold n2. rewrite dget_dset_other by discriminate. rewrite I1. reflexivity. }
      assert (SRC : (exists x, (n', e) = (dset "box" (VStr x) n2, None) /\ image_from n dd pdata (VStr x)) \/
                    (n' = n2 /\ e <> None /\ (forall v, ~ image_from n dd pdata v) /\ (e = Some ENoImage <-> dget "image" dd = None /\ dget "image" pdata = None))).
      { assert (FROM : forall v, image_from n dd pdata v ->
                  (dget "image" dd = Some v \/ (dget "image" dd = None /\ dget "image" pdata = Some v)) /\ exists x, v = VStr x).
        { intros v IF. destruct IF as [w A B|w A B|x A B C|x A B C D].
          - exfalso. rewrite (F w A) in B. discriminate B.
          - rewrite IM in B. discriminate B.
          - split; [left; exact C|exists x; reflexivity].
          - split; [right; auto|exists x; reflexivity]. }
        destruct (dget "image" dd) as [v|] eqn:ID.
        - unfold image_value in H. destruct v as [|b|z|x|l|d];
            try (injection H as E1 E2; subst n' e; right; split; [reflexivity|]; split; [discriminate|]; split;
                 [intros w IF; destruct (FROM w IF) as [[Q|[Q _]] [x X]]; [subst w; discriminate Q|discriminate Q]|split; [intros Q; discriminate Q|intros [Q _]; discriminate Q]]).
          left. exists x. split; [symmetry; exact H|]. apply From_device; assumption.
        - destruct (dget "image" pdata) as [v|] eqn:IP.
          + unfold image_value in H. destruct v as [|b|z|x|l|d];
              try (injection H as E1 E2; subst n' e; right; split; [reflexivity|]; split; [discriminate|]; split;
                   [intros w IF; destruct (FROM w IF) as [[Q|[_ Q]] [x X]]; [discriminate Q|subst w; discriminate Q]|split; [intros Q; discriminate Q|intros [_ Q]; discriminate Q]]).
            left. exists x. split; [symmetry; exact H|]. apply From_provider; assumption.
          + injection H as E1 E2. subst n' e. right. split; [reflexivity|]. split; [discriminate|]. split.
            * intros w IF. destruct (FROM w IF) as [[Q|[_ Q]] _]; discriminate Q.
            * split; [auto|reflexivity]. }
      clear H. destruct SRC as [[x [Q IF]]|[E1 [E2 [E3 E4]]]].
      * injection Q as E1 E2. subst n' e. destruct (K2 (VStr x)) as [A [B C]]. split. { split; [|reflexivity]. intros _. exists (VStr x). exact IF. }
        split. { intros w IW. rewrite dget_dset_same.
          destruct IF as [w1 A1 B1'|w1 A1 B1'|x1 A1 B1' C1|x1 A1 B1' C1 D1]; destruct IW as [w2 A2 B2|w2 A2 B2|x2 A2 B2 C2|x2 A2 B2 C2 D2]; try congruence;
            try (exfalso; rewrite (F _ A1) in B1'; discriminate B1'); try (exfalso; rewrite (F _ A2) in B2; discriminate B2). }
        split; [rewrite B; exact P1|]. split; [exact A|]. split; [exact C|]. split; [intros Q; discriminate Q|].
        intros [_ [_ [Q1 Q2]]]. exfalso. destruct IF as [w1 A1 B1'|w1 A1 B1'|x1 A1 B1' C1|x1 A1 B1' C1 D1]; try congruence. rewrite (F _ A1) in B1'. discriminate B1'.
      * subst n'. destruct K3 as [A [B C]]. split. { split; [intros Q; contradiction|]. intros [v IF]. exfalso. exact (E3 v IF). }
        split. { intros v IF. exfalso. exact (E3 v IF). }
        split; [rewrite B; exact P1|]. split; [exact A|]. split; [exact C|]. rewrite E4. split; [auto|intros [_ [_ Q]]; exact Q].
Qed.

Example node_image_case :
  let devs := [("frr", VDict [("clab", VDict [("image", VStr "frr:10"); ("node", VDict [("kind", VStr "linux"); ("x", VInt 1)])])]);
               ("eos", VDict [("image", VStr "any"); ("clab", VDict [("image", VStr "ceos")])])] in
  find_node_image "clab" devs [("device", VStr "frr"); ("clab", VDict [("x", VInt 2)])] =
    ([("device", VStr "frr"); ("clab", VDict [("kind", VStr "linux"); ("x", VInt 2)]); ("box", VStr "frr:10")], None) /\
  find_node_image "clab" devs [("device", VStr "eos")] = ([("device", VStr "eos"); ("box", VStr "any")], None) /\
  find_node_image "clab" devs [("device", VStr "eos"); ("image", VStr "mine")] = ([("device", VStr "eos"); ("box", VStr "mine")], None) /\
  snd (find_node_image "libvirt" devs [("device", VStr "frr")]) = Some ENoImage.
Proof. vm_compute. repeat split; reflexivity. Qed.

(* ---- all nodes ---- *)

Definition eff_provider (tp defp : string) (dd n : dict val) (p : string) : Prop :=
  (dget "provider" dd = Some (VStr p) /\ p <> tp) \/
  ((dget "provider" dd = None \/ dget "provider" dd = Some (VStr tp)) /\
   ((dget "provider" n = Some (VStr p) /\ p <> tp) \/
    ((dget "provider" n = None \/ dget "provider" n = Some (VStr tp)) /\ p = defp))).

(* device, provider and image chosen for a node *)
Definition chosen (tp defp : string) (def : option val) (devs n : dict val) (s p : string) (v : val) : Prop :=
  exists dd pdata, wanted_device def n (VStr s) /\ s <> "" /\ dget s devs = Some (VDict dd) /\ eff_provider tp defp dd n p /\
    (dget p dd = Some (VDict pdata) \/ (dget p dd = None /\ pdata = [])) /\ image_from n dd pdata v.

(* device data are dictionaries, providers are names, data for providers are dictionaries *)
Definition sane_devices (names : list string) (devs : dict val) : Prop :=
  forall s v, dget s devs = Some v -> exists dd, v = VDict dd /\
    (forall x, dget "provider" dd = Some x -> exists p, x = VStr p /\ In p names) /\
    (forall p x, In p names -> dget p dd = Some x -> exists d, x = VDict d).

Lemma wanted_unique : forall def n v w, wanted_device def n v -> wanted_device def n w -> v = w.
Proof. intros def n v w [A|[A [B|[B C]]]] [D|[D [F|[F G]]]]; congruence. Qed.

Lemma eff_unique : forall tp defp dd n p q, eff_provider tp defp dd n p -> eff_provider tp defp dd n q -> p = q.
Proof.
  intros tp defp dd n p q [[A NA]|[A A']] [[B NB]|[B B']].
  - congruence.
  - destruct B as [B|B]; congruence.
  - destruct A as [A|A]; congruence.
  - destruct A' as [[C NC]|[C EC]]; destruct B' as [[D ND]|[D ED]]; try congruence.
    + destruct D as [D|D]; congruence.
    + destruct C as [C|C]; congruence.
Qed.

Lemma image_ext : forall n m dd pdata v, dget "box" m = dget "box" n -> dget "image" m = dget "image" n ->
  image_from n dd pdata v -> image_from m dd pdata v.
Proof.
  intros n m dd pdata v B I F. destruct F as [v A T|v A G|x A G C|x A G C D].
  - apply From_box; [rewrite B; exact A|exact T].
  - apply From_image; [intros b Q; apply A; rewrite <- B; exact Q|rewrite I; exact G].
  - apply From_device; [intros b Q; apply A; rewrite <- B; exact Q|rewrite I; exact G|exact C].
  - apply From_provider; [intros b Q; apply A; rewrite <- B; exact Q|rewrite I; exact G|exact C|exact D].
Qed.

Lemma image_fun : forall n dd pdata v w, image_from n dd pdata v -> image_from n dd pdata w -> v = w.
Proof.
  intros n dd pdata v w F G.
  destruct F as [v A T|v A B|x A B C|x A B C D]; destruct G as [w A' T'|w A' B'|x' A' B' C'|x' A' B' C' D']; try congruence;
    try (rewrite (A' _ A) in T; discriminate T); try (rewrite (A _ A') in T'; discriminate T').
Qed.

Lemma augment_one_exact : forall names tp defp provs def devs n s n' s' e,
  augment_one tp defp provs def devs n s = (n', s', e) -> sane_devices names devs ->
  In defp names -> (forall p, In p (dkeys provs) -> In p names) -> ~ In "box" names -> ~ In "image" names -> ~ In "device" names -> ~ In "provider" names ->
  (e = None <-> provider_fine tp provs n /\ exists d p v, chosen tp defp def devs n d p v) /\
  (forall d p v, provider_fine tp provs n -> chosen tp defp def devs n d p v ->
     dget "device" n' = Some (VStr d) /\ dget "box" n' = Some v /\
     (dget "provider" n' = Some (VStr p) \/ (dget "provider" n' = None /\ p = defp))).
Proof.
  intros names tp defp provs def devs n s n' s' e H SANE DN PN NB NI ND NP. unfold augment_one in H.
  destruct (validate_node_provider tp provs n (ns_used s)) as [[n1 used] e1] eqn:V.
  destruct (node_provider_exact _ _ _ _ _ _ _ V) as [V1 [V2 [V3 [V4 [_ _]]]]].
  destruct e1 as [e1|].
  { injection H as E1 E2 E3. subst n' s' e.
    assert (NF : ~ provider_fine tp provs n) by (intros Q; apply V1 in Q; discriminate Q). split.
    - split; [intros Q; discriminate Q|]. intros [Q _]. contradiction.
    - intros d p v Q _. contradiction. }
  assert (FINE : provider_fine tp provs n) by (apply V1; reflexivity).
  assert (W1 : forall v, wanted_device def n1 v <-> wanted_device def n v).
  { intros v. unfold wanted_device. rewrite V2 by discriminate. split; intros Q; exact Q. }
  assert (P1 : dget "provider" n1 = None /\ (dget "provider" n = None \/ dget "provider" n = Some (VStr tp)) \/
               exists p, dget "provider" n1 = Some (VStr p) /\ dget "provider" n = Some (VStr p) /\ p <> tp /\ In p names).
  { destruct (dget "provider" n) as [v|] eqn:G.
    - destruct (veqb v (VStr tp)) eqn:VV.
      + apply veqb_str in VV. subst v. left. split; [apply V3; reflexivity|right; reflexivity].
      + assert (NV : Some v <> Some (VStr tp)). { intros Q. injection Q as Q. apply veqb_str in Q. rewrite Q in VV. discriminate VV. }
        right. specialize (V4 NV). subst n1. destruct FINE as [Q|[Q|[p [Q U]]]]; [congruence|congruence|].
        exists p. split; [exact Q|]. split; [congruence|]. split; [intros E; subst p; congruence|]. apply PN. destruct U as [[x X] _]. exact (dget_Some_key _ _ X).
    - left. assert (NV : @None val <> Some (VStr tp)) by discriminate. specialize (V4 NV). subst n1. auto. }
  clear V V1 V3 V4.
  destruct (find_node_device tp def devs n1 (ns_attrs s)) as [[n2 attrs] e2] eqn:D.
  destruct (node_device_accepted _ _ _ _ _ _ _ _ D) as [D1 [_ [_ [D4 _]]]].
  destruct e2 as [e2|].
  { injection H as E1 E2 E3. subst n' s' e.
    assert (NC : forall d p v, ~ chosen tp defp def devs n d p v).
    { intros d p v [dd [pdata [A [B [C _]]]]]. assert (Q : Some e2 = None) by (apply D1; exists d, (VDict dd); split; [apply W1; exact A|auto]). discriminate Q. }
    split.
    - split; [intros Q; discriminate Q|]. intros [_ [d [p [v Q]]]]. exfalso. exact (NC d p v Q).
    - intros d p v _ Q. exfalso. exact (NC d p v Q). }
  assert (ACC : exists d dv, wanted_device def n1 (VStr d) /\ d <> "" /\ dget d devs = Some dv) by (apply D1; reflexivity).
  destruct ACC as [d [dv [WD [NE DV]]]]. destruct (SANE d dv DV) as [dd [ED [SP SD]]]. subst dv.
  destruct (node_device_data_exact _ _ _ _ _ _ _ _ _ D WD DV) as [X1 [_ [_ [X4 _]]]].
  assert (DEV2 := D4 _ WD).
  (* provider *)
  assert (EP : exists p, eff_provider tp defp dd n p /\ In p names /\ (dget "provider" n2 = Some (VStr p) \/ (dget "provider" n2 = None /\ p = defp))).
  { rewrite X1. unfold eff_provider. destruct (dget "provider" dd) as [x|] eqn:GX.
    - destruct (SP x eq_refl) as [p [EX IP]]. subst x. destruct (veqb (VStr p) (VStr tp)) eqn:VV.
      + apply veqb_str in VV. injection VV as VV. subst p. destruct P1 as [[A B]|[q [A [B [C F]]]]].
        * exists defp. split; [right; split; [right; reflexivity|right; auto]|]. split; [exact DN|right; auto].
        * exists q. split; [right; split; [right; reflexivity|left; auto]|]. split; [exact F|left; exact A].
      + exists p. split; [left; split; [reflexivity|]|split; [exact IP|left; reflexivity]]. intros Q. subst p. assert (Y : veqb (VStr tp) (VStr tp) = true) by (apply veqb_str; reflexivity). rewrite Y in VV. discriminate VV.
    - destruct P1 as [[A B]|[q [A [B [C F]]]]].
      + exists defp. split; [right; split; [left; reflexivity|right; auto]|]. split; [exact DN|right; auto].
      + exists q. split; [right; split; [left; reflexivity|left; auto]|]. split; [exact F|left; exact A]. }
  destruct EP as [p [EP [IP PR]]].
  assert (PD : exists pdata, dget p dd = Some (VDict pdata) \/ (dget p dd = None /\ pdata = [])).
  { destruct (dget p dd) as [x|] eqn:G; [|exists []; right; auto]. destruct (SD p x IP G) as [pd E]. subst x. exists pd. left. reflexivity. }
  destruct PD as [pdata PD].
  assert (NPB : p <> "box") by (intros Q; subst p; contradiction).
  assert (NPI : p <> "image") by (intros Q; subst p; contradiction).
  assert (NPD : "device" <> p) by (intros Q; subst p; contradiction).
  assert (NPP : "provider" <> p) by (intros Q; subst p; contradiction).
  destruct (find_node_image defp devs n2) as [n3 e3] eqn:I. injection H as E1 E2 E3. subst n' s' e3.
  destruct (node_image_exact _ _ _ _ _ _ _ _ _ I DEV2 DV PR PD NPB NPI) as [I1 [I2 [_ [I4 _]]]].
  assert (BX : dget "box" n2 = dget "box" n) by (rewrite X4 by discriminate; apply V2; discriminate).
  assert (IX : dget "image" n2 = dget "image" n) by (rewrite X4 by discriminate; apply V2; discriminate).
  assert (UNI : forall d' p' v', chosen tp defp def devs n d' p' v' -> d' = d /\ p' = p /\ image_from n2 dd pdata v').
  { intros d' p' v' [dd' [pd' [A [B [C [F [G J]]]]]]].
    assert (Q := wanted_unique _ _ _ _ A (proj1 (W1 _) WD)). injection Q as Q. subst d'.
    rewrite DV in C. injection C as C. subst dd'. assert (Q := eff_unique _ _ _ _ _ _ F EP). subst p'.
    split; [reflexivity|]. split; [reflexivity|]. assert (pd' = pdata). { destruct G as [G|[G G']]; destruct PD as [PD|[PD PD']]; congruence. } subst pd'.
    apply (image_ext n); assumption. }
  split.
  - split.
    + intros Q. split; [exact FINE|]. apply I1 in Q. destruct Q as [v IF]. exists d, p, v. exists dd, pdata.
      split; [apply W1; exact WD|]. split; [exact NE|]. split; [exact DV|]. split; [exact EP|]. split; [exact PD|].
      apply (image_ext n2); [symmetry; exact BX|symmetry; exact IX|exact IF].
    + intros [_ [d' [p' [v' C]]]]. apply I1. destruct (UNI _ _ _ C) as [_ [_ IF]]. exists v'. exact IF.
  - intros d' p' v' _ C. destruct (UNI _ _ _ C) as [Q1 [Q2 IF]]. subst d' p'. split; [|split].
    + rewrite I4; [exact DEV2|discriminate|discriminate|exact NPD].
    + exact (I2 _ IF).
    + rewrite I4; [exact PR|discriminate|discriminate|exact NPP].
Qed.

(* Nothing is reported for a node exactly when its provider is acceptable and a device and an image can be chosen for it; the node then
   has that device, provider and image. What other nodes are does not matter. *)
Theorem provider_pass_exact : forall names tp defp provs def devs nodes s nodes' s' es,
  augment_nodes tp defp provs def devs nodes s = (nodes', s', es) -> sane_devices names devs ->
  In defp names -> (forall p, In p (dkeys provs) -> In p names) -> ~ In "box" names -> ~ In "image" names -> ~ In "device" names -> ~ In "provider" names ->
  NoDup (dkeys nodes) ->
  dkeys nodes' = dkeys nodes /\
  (forall name e, In (name, e) es -> In name (dkeys nodes)) /\
  forall name n, In (name, n) nodes ->
    ((forall e, ~ In (name, e) es) <-> provider_fine tp provs n /\ exists d p v, chosen tp defp def devs n d p v) /\
    exists n', In (name, n') nodes' /\
      forall d p v, provider_fine tp provs n -> chosen tp defp def devs n d p v ->
        dget "device" n' = Some (VStr d) /\ dget "box" n' = Some v /\
        (dget "provider" n' = Some (VStr p) \/ (dget "provider" n' = None /\ p = defp)).
Proof.
  intros names tp defp provs def devs nodes s nodes' s' es H SANE DN PN NB NI ND NP. revert s nodes' s' es H.
  induction nodes as [|[x m] r IH]; intros s nodes' s' es H NK.
  - injection H as E1 E2 E3. subst nodes' s' es. split; [reflexivity|]. split; [intros name e []|intros name n []].
  - cbn [augment_nodes] in H. destruct (augment_one tp defp provs def devs m s) as [[m' s1] e1] eqn:A1.
    destruct (augment_nodes tp defp provs def devs r s1) as [[r' s2] es2] eqn:A2. injection H as E1 E2 E3. subst nodes' s' es.
    cbn [dkeys map fst] in NK. inversion NK as [|y l NX NR]. subst y l.
    destruct (IH _ _ _ _ A2 NR) as [K [ER REST]].
    destruct (augment_one_exact _ _ _ _ _ _ _ _ _ _ _ A1 SANE DN PN NB NI ND NP) as [O1 O2].
    split; [cbn [dkeys map fst]; f_equal; exact K|]. split.
    { intros name e Q. destruct e1 as [e1|]; [destruct Q as [Q|Q]; [injection Q as Q1 Q2; subst; left; reflexivity|]|]; right; exact (ER _ _ Q). }
    intros name n [Q|Q].
    + injection Q as Q1 Q2. subst name n. split.
      * rewrite <- O1. split.
        { intros Q. destruct e1 as [e1|]; [|reflexivity]. exfalso. apply (Q e1). left. reflexivity. }
        { intros Q e J. subst e1. apply NX. exact (ER _ _ J). }
      * exists m'. split; [left; reflexivity|exact O2].
    + assert (NN : name <> x). { intros E. subst name. apply NX. apply in_map_iff. exists (x, n). auto. }
      destruct (REST name n Q) as [R1 [n' [R2 R3]]]. split.
      * rewrite <- R1. split.
        { intros J e G. apply (J e). destruct e1; [right|]; exact G. }
        { intros J e G. destruct e1 as [e1|]; [|exact (J e G)]. destruct G as [G|G]; [injection G as G1 G2; subst; contradiction|exact (J e G)]. }
      * exists n'. split; [right; exact R2|exact R3].
Qed.

Example provider_pass_case :
  let devs := [("frr", VDict [("clab", VDict [("image", VStr "frr:10")])]); ("eos", VDict [("provider", VStr "libvirt"); ("image", VStr "veos")])] in
  let provs := [("clab", VDict []); ("libvirt", VDict [("clab", VBool true)])] in
  augment_nodes "clab" "clab" provs (Some (VStr "frr")) devs
    [("a", []); ("b", [("provider", VStr "x")]); ("c", [("device", VStr "eos")]); ("d", [("device", VStr "?")])] (mk_ns [] (VDict [])) =
    ([("a", [("device", VStr "frr"); ("box", VStr "frr:10")]); ("b", [("provider", VStr "x")]);
      ("c", [("device", VStr "eos"); ("provider", VStr "libvirt"); ("box", VStr "veos")]); ("d", [("device", VStr "?")])],
     mk_ns [] (VDict []), [("b", EUnknownProvider); ("d", EBadDevice)]) /\
  sane_devices ["clab"; "libvirt"] devs.
Proof.
  split; [vm_compute; reflexivity|]. intros s v G. cbn [dget] in G.
  destruct (String.eqb s "frr"); [injection G as G; subst v|destruct (String.eqb s "eos"); [injection G as G; subst v|discriminate G]];
    (eexists; split; [reflexivity|]); split.
  - intros x Q. discriminate Q.
  - intros p x [E|[E|[]]] Q; subst p; [injection Q as Q; subst x; eexists; reflexivity|discriminate Q].
  - intros x Q. injection Q as Q. subst x. exists "libvirt". split; [reflexivity|right; left; reflexivity].
  - intros p x [E|[E|[]]] Q; subst p; discriminate Q.
Qed.

(* ---- device data ---- *)

Lemma copy_news : forall src ks n k, dget k (fold_left (copy_new src) ks n) =
  match dget k n with Some v => Some v | None => if memS k ks then dget k src else None end.
Proof.
  intros src ks. induction ks as [|x r IH]; intros n k.
  - cbn [fold_left memS existsb]. destruct (dget k n); reflexivity.
  - cbn [fold_left]. rewrite IH. unfold copy_new. change (memS k (x :: r)) with (String.eqb k x || memS k r).
    destruct (String.eqb k x) eqn:E.
    + apply String.eqb_eq in E. subst x. destruct (dget k src) as [v|] eqn:G.
      * unfold dmem. destruct (dget k n) as [w|] eqn:Q; [rewrite Q; reflexivity|]. rewrite dget_dset_same. reflexivity.
      * destruct (dget k n); [reflexivity|]. cbn [orb]. destruct (memS k r); reflexivity.
    + apply String.eqb_neq in E. cbn [orb]. destruct (dget x src) as [v|]; [|reflexivity]. destruct (dmem x n); [reflexivity|].
      rewrite dget_dset_other by exact E. reflexivity.
Qed.

Lemma dget_if_key : forall (d : dict val) k, (if memS k (dkeys d) then dget k d else None) = dget k d.
Proof.
  intros d k. destruct (memS k (dkeys d)) eqn:M; [reflexivity|]. destruct (dget k d) as [v|] eqn:G; [|reflexivity].
  exfalso. apply memS_false in M. apply M. exact (dget_Some_key _ _ G).
Qed.

Definition is_daemon (dev : dict val) : Prop := exists v, dget "daemon" dev = Some v /\ truthy v = true.

Lemma daemon_get : forall dev n k, k <> "_daemon" -> k <> "_daemon_parent" -> k <> "_daemon_config" -> dget k (daemon_data dev n) = dget k n.
Proof.
  intros dev n k N1 N2 N3. unfold daemon_data. destruct (dget "daemon" dev) as [v|]; [|reflexivity]. destruct (truthy v); [|reflexivity].
  cbv zeta. destruct (dget "daemon_config" dev) as [c|].
  - rewrite dget_dset_other by exact N3. rewrite dget_dset_other by exact N2. apply dget_dset_other. exact N1.
  - rewrite dget_dset_other by exact N2. apply dget_dset_other. exact N1.
Qed.

(* Attributes of a node are never replaced by those of its device; known node attributes come from device data for the provider of the
   node, and everything else from the node dictionary of the device. Daemons are marked; daemon files that are not a dictionary are removed
   and reported. *)
Theorem device_data_copied_exact : forall attrs provider providers dd nd n n' err,
  augment_node_device_data attrs provider providers dd n = (n', err) ->
  (dget "node" dd = Some (VDict nd) \/ (dget "node" dd = None /\ nd = [])) ->
  let dev := entries (get_consolidated_device_data (VDict dd) provider providers) in
  let base := fun k => match dget k n with
                       | Some v => Some v
                       | None => match (if memS k attrs then dget k dev else None) with Some v => Some v | None => dget k nd end
                       end in
  (forall k, k <> "_daemon" -> k <> "_daemon_parent" -> k <> "_daemon_config" -> dget k n' = base k) /\
  (is_daemon dev -> dget "_daemon" n' = Some (VBool true) /\
     dget "_daemon_parent" n' = Some (match dget "daemon_parent" dev with Some p => p | None => VDict [] end)) /\
  (~ is_daemon dev -> dget "_daemon" n' = base "_daemon" /\ dget "_daemon_parent" n' = base "_daemon_parent") /\
  (forall c, (is_daemon dev /\ dget "daemon_config" dev = Some c) \/
             ((~ is_daemon dev \/ dget "daemon_config" dev = None) /\ base "_daemon_config" = Some c) ->
     (forall d, c = VDict d -> dget "_daemon_config" n' = Some c /\ err = false) /\
     (is_dict c = false -> dget "_daemon_config" n' = None /\ err = true)) /\
  ((~ is_daemon dev \/ dget "daemon_config" dev = None) -> base "_daemon_config" = None -> dget "_daemon_config" n' = None /\ err = false).
Proof.
  intros attrs provider providers dd nd n n' err H NDD dev base. unfold augment_node_device_data in H. fold dev in H.
  assert (EN : rdd "node" dd = nd). { unfold rdd, rd. destruct NDD as [Q|[Q E]]; rewrite Q; [reflexivity|symmetry; exact E]. }
  rewrite EN in H.
  set (n2 := fold_left (copy_new nd) (dkeys nd) (fold_left (copy_new dev) attrs n)) in *.
  assert (B2 : forall k, dget k n2 = base k).
  { intros k. unfold n2. rewrite copy_news, copy_news. unfold base. rewrite dget_if_key. destruct (dget k n); [reflexivity|]. destruct (if memS k attrs then dget k dev else None); reflexivity. }
  clearbody n2. set (n3 := daemon_data dev n2) in *.
  assert (OTH : forall k, k <> "_daemon_config" -> dget k n' = dget k n3).
  { intros k N. destruct (dget "_daemon_config" n3) as [v|]; [destruct (is_dict v)|]; injection H as E1 E2; subst n'; [reflexivity| |reflexivity].
    apply dget_dpop_other. exact N. }
  assert (ISD : (exists v, dget "daemon" dev = Some v /\ truthy v = true) \/ (~ is_daemon dev /\ n3 = n2)).
  { unfold n3, daemon_data, is_daemon. destruct (dget "daemon" dev) as [v|]; [destruct (truthy v) eqn:T|].
    - left. exists v. auto.
    - right. split; [|reflexivity]. intros [w [Q R]]. injection Q as Q. subst w. rewrite T in R. discriminate R.
    - right. split; [|reflexivity]. intros [w [Q R]]. discriminate Q. }
  split; [|split; [|split; [|split]]].
  - intros k N1 N2 N3. rewrite OTH by exact N3. unfold n3. rewrite daemon_get by assumption. apply B2.
  - intros [v [G T]]. rewrite !OTH by discriminate. unfold n3, daemon_data. rewrite G, T. cbv zeta. unfold rd.
    destruct (dget "daemon_config" dev) as [c|].
    + split.
      * rewrite dget_dset_other by discriminate. rewrite dget_dset_other by discriminate. apply dget_dset_same.
      * rewrite dget_dset_other by discriminate. apply dget_dset_same.
    + split; [rewrite dget_dset_other by discriminate; apply dget_dset_same|apply dget_dset_same].
  - intros ND. destruct ISD as [ISD|[_ E]]; [exfalso; exact (ND ISD)|]. rewrite !OTH by discriminate. rewrite E. split; apply B2.
  - intros c C. assert (G3 : dget "_daemon_config" n3 = Some c).
    { unfold n3, daemon_data. destruct C as [[[v [G T]] DC]|[[ND|DC] BC]].
      - rewrite G, T. cbv zeta. rewrite DC. apply dget_dset_same.
      - destruct (dget "daemon" dev) as [v|] eqn:G; [|rewrite B2; exact BC]. destruct (truthy v) eqn:T; [|rewrite B2; exact BC].
        exfalso. apply ND. exists v. auto.
      - destruct (dget "daemon" dev) as [v|]; [|rewrite B2; exact BC]. destruct (truthy v); [|rewrite B2; exact BC]. cbv zeta. rewrite DC.
        rewrite dget_dset_other by discriminate. rewrite dget_dset_other by discriminate. rewrite B2. exact BC. }
    rewrite G3 in H. split.
    + intros d E. subst c. cbn [is_dict] in H. injection H as E1 E2. subst n' err. split; [exact G3|reflexivity].
    + intros D. rewrite D in H. injection H as E1 E2. subst n' err. split; [apply dget_dpop_same|reflexivity].
  - intros C BC. assert (G3 : dget "_daemon_config" n3 = None).
    { unfold n3, daemon_data. destruct (dget "daemon" dev) as [v|] eqn:G; [|rewrite B2; exact BC]. destruct (truthy v) eqn:T; [|rewrite B2; exact BC]. destruct C as [ND|DC].
      - exfalso. apply ND. exists v. auto.
      - cbv zeta. rewrite DC. rewrite dget_dset_other by discriminate. rewrite dget_dset_other by discriminate. rewrite B2. exact BC. }
    rewrite G3 in H. injection H as E1 E2. subst n' err. split; [exact G3|reflexivity].
Qed.

Example device_data_copied_case :
  augment_node_device_data ["mtu"; "role"] "clab" ["clab"; "libvirt"]
    [("mtu", VInt 1500); ("role", VStr "host"); ("x", VInt 1); ("clab", VDict [("mtu", VInt 1400)]); ("daemon", VBool true);
     ("daemon_config", VStr "oops"); ("node", VDict [("y", VInt 2); ("role", VStr "router")])] [("role", VStr "bridge")] =
    ([("role", VStr "bridge"); ("mtu", VInt 1400); ("y", VInt 2); ("_daemon", VBool true); ("_daemon_parent", VDict [])], true).
Proof. vm_compute. reflexivity. Qed.

(* ---- loopback interface ---- *)

(* the address of a loopback interface: a prefix of the pool, or the first address in an IPv6 prefix that is not a host prefix *)
Inductive pool_address : string -> pfx -> string -> Prop :=
| Addr_v6_host t first : pool_address "ipv6" (PNet t 128 first) t
| Addr_v6 t len first : len <> 128%Z -> pool_address "ipv6" (PNet t len first) first
| Addr_net af t len first : af <> "ipv6" -> pool_address af (PNet t len first) t
| Addr_other af t : pool_address af (POther t) t.

Definition fixed_attrs : list string := ["type"; "neighbors"; "virtual_interface"; "ifindex"; "ifname"].
Definition has_own (lb : dict val) (k : string) : Prop := exists v, dget k lb = Some v /\ truthy v = true.

Lemma has_own_rd : forall lb k, truthy (rd k lb) = true <-> has_own lb k.
Proof.
  intros lb k. unfold rd, has_own. destruct (dget k lb) as [v|].
  - split; [intros T; exists v; auto|intros [w [Q T]]; injection Q as Q; subst w; exact T].
  - split; [intros T; discriminate T|intros [w [Q T]]; discriminate Q].
Qed.

Lemma addr_iff : forall af p t, pool_address af p t <-> (p <> PTrue /\ p <> PFalse) /\ loop_addr af p = t.
Proof.
  intros af p t. split.
  - intros A. destruct A as [t f|t len f N|af t len f N|af t]; (split; [split; discriminate|]); cbn [loop_addr].
    + reflexivity.
    + cbn. destruct (Z.eqb len 128) eqn:E; [apply Z.eqb_eq in E; contradiction|reflexivity].
    + apply String.eqb_neq in N. rewrite N. reflexivity.
    + reflexivity.
  - intros [[N1 N2] E]. destruct p as [| |x len f|x]; [contradiction|contradiction| |].
    + cbn [loop_addr] in E. destruct (String.eqb af "ipv6") eqn:V.
      * apply String.eqb_eq in V. subst af. destruct (Z.eqb len 128) eqn:L.
        { apply Z.eqb_eq in L. subst len t. apply Addr_v6_host. }
        { apply Z.eqb_neq in L. subst t. apply Addr_v6. exact L. }
      * apply String.eqb_neq in V. subst t. apply Addr_net. exact V.
    + cbn in E. subst t. apply Addr_other.
Qed.

(* what a pool does to an attribute of the loopback interface *)
Definition loop_rel (lb : dict val) (L : dict pfx) (k : string) (new : option val) (fam : option bool) : Prop :=
  (has_own lb k /\ new = dget k lb /\ fam = None) \/
  (~ has_own lb k /\ (exists p t, In (k, p) L /\ pool_address k p t /\ new = Some (VStr t)) /\ fam = Some true) \/
  (~ has_own lb k /\ In (k, PFalse) L /\ new = Some (rd k lb) /\ fam = None) \/
  (~ has_own lb k /\ (forall p, In (k, p) L -> p = PTrue) /\ new = dget k lb /\ fam = None).

Lemma loop_fold : forall L lb af es lb' af' es', NoDup (map fst L) -> (forall k, In k (map fst L) -> dget k af = None) ->
  fold_left loop_step L (lb, af, es) = (lb', af', es') ->
  (forall k, ~ In k (map fst L) -> dget k lb' = dget k lb /\ dget k af' = dget k af) /\
  (forall k, In k (map fst L) -> loop_rel lb L k (dget k lb') (dget k af')) /\
  es' = es ++ repeat EUnnumbered (length (filter (fun x => match snd x with PTrue => true | _ => false end) L)).
Proof.
  intros L. induction L as [|[x p] r IH]; intros lb af es lb' af' es' NK FR H.
  - injection H as E1 E2 E3. subst. split; [auto|]. split; [intros k []|]. cbn. rewrite app_nil_r. reflexivity.
  - cbn [map fst] in NK. inversion NK as [|y l NX NR]. subst y l. cbn [fold_left] in H.
    destruct (loop_step (lb, af, es) (x, p)) as [[lb1 af1] es1] eqn:S.
    assert (ST : (forall k, k <> x -> dget k lb1 = dget k lb /\ dget k af1 = dget k af) /\ loop_rel lb [(x, p)] x (dget x lb1) (dget x af1) /\
                 es1 = es ++ (match p with PTrue => [EUnnumbered] | _ => [] end)).
    { assert (FX : dget x af = None) by (apply FR; left; reflexivity).
      unfold loop_step in S. cbn [snd fst] in S. destruct (truthy (rd x lb)) eqn:T.
      - assert (S' : lb1 = lb /\ af1 = af /\ es1 = es ++ (match p with PTrue => [EUnnumbered] | _ => [] end)).
        { destruct p; injection S as E1 E2 E3; subst; rewrite ?app_nil_r; auto. }
        destruct S' as [E1 [E2 E3]]. subst lb1 af1. split; [auto|]. split; [|exact E3]. left. split; [apply has_own_rd; exact T|]. auto.
      - assert (NO : ~ has_own lb x) by (intros Q; apply has_own_rd in Q; rewrite Q in T; discriminate T).
        destruct p as [| |t len f|t]; injection S as E1 E2 E3; subst lb1 af1 es1.
        + split; [auto|]. split; [|reflexivity]. right. right. right. split; [exact NO|]. split; [|auto]. intros p [Q|[]]. injection Q as Q. symmetry. exact Q.
        + split; [intros k N; split; [apply dget_dset_other; exact N|reflexivity]|]. split; [|rewrite app_nil_r; reflexivity].
          right. right. left. split; [exact NO|]. split; [left; reflexivity|]. split; [apply dget_dset_same|exact FX].
        + split; [intros k N; split; apply dget_dset_other; exact N|]. split; [|rewrite app_nil_r; reflexivity].
          right. left. split; [exact NO|]. rewrite !dget_dset_same. split; [|reflexivity]. exists (PNet t len f), (loop_addr x (PNet t len f)).
          split; [left; reflexivity|]. split; [apply addr_iff; split; [split; discriminate|reflexivity]|reflexivity].
        + split; [intros k N; split; apply dget_dset_other; exact N|]. split; [|rewrite app_nil_r; reflexivity].
          right. left. split; [exact NO|]. rewrite !dget_dset_same. split; [|reflexivity]. exists (POther t), t.
          split; [left; reflexivity|]. split; [apply Addr_other|reflexivity]. }
    clear S. destruct ST as [ST1 [ST2 ST3]].
    assert (FR1 : forall k, In k (map fst r) -> dget k af1 = None).
    { intros k I. assert (N : k <> x) by (intros Q; subst k; contradiction). rewrite (proj2 (ST1 k N)). apply FR. right. exact I. }
    destruct (IH _ _ _ _ _ _ NR FR1 H) as [R1 [R2 R3]]. split; [|split].
    + intros k NI. assert (N : k <> x) by (intros Q; apply NI; left; symmetry; exact Q).
      destruct (R1 k) as [A B]; [intros Q; apply NI; right; exact Q|]. destruct (ST1 k N) as [C D]. rewrite A, B, C, D. auto.
    + intros k [Q|I].
      * cbn [fst] in Q. subst k. destruct (R1 x NX) as [A B]. rewrite A, B. unfold loop_rel in *.
        destruct ST2 as [Q|[[Q1 [[p' [t [Q2 [Q3 Q4]]]] Q5]]|[[Q1 [Q2 Q3]]|[Q1 [Q2 Q3]]]]].
        { left. exact Q. }
        { right. left. split; [exact Q1|]. split; [|exact Q5]. exists p', t. split; [destruct Q2 as [Q2|[]]; left; exact Q2|auto]. }
        { right. right. left. split; [exact Q1|]. split; [destruct Q2 as [Q2|[]]; left; exact Q2|exact Q3]. }
        { right. right. right. split; [exact Q1|]. split; [|exact Q3]. intros p' [J|J]; [apply Q2; left; exact J|].
          exfalso. apply NX. apply in_map_iff. exists (x, p'). auto. }
      * assert (N : k <> x) by (intros Q; subst k; contradiction). destruct (ST1 k N) as [C D].
        assert (HO : has_own lb1 k <-> has_own lb k) by (unfold has_own; rewrite C; split; intros Q; exact Q).
        specialize (R2 k I). unfold loop_rel in *. assert (RD : rd k lb1 = rd k lb) by (unfold rd; rewrite C; reflexivity). rewrite C, RD, HO in R2.
        destruct R2 as [Q|[[Q1 [[p' [t [Q2 [Q3 Q4]]]] Q5]]|[[Q1 [Q2 Q3]]|[Q1 [Q2 Q3]]]]].
        { left. exact Q. }
        { right. left. split; [exact Q1|]. split; [|exact Q5]. exists p', t. split; [right; exact Q2|auto]. }
        { right. right. left. split; [exact Q1|]. split; [right; exact Q2|exact Q3]. }
        { right. right. right. split; [exact Q1|]. split; [|exact Q3]. intros p' [J|J]; [injection J as J1 J2; subst; contradiction|apply Q2; exact J]. }
    + rewrite R3, ST3, <- app_assoc. f_equal. cbn [filter snd]. destruct p; reflexivity.
Qed.

(* Addresses set on the main loopback interface stay; a missing address is taken from the pool, which adds the address family to the
   node; everything else stays. Unnumbered pools and addresses that are not text are reported. *)
Theorem loopback_exact : forall ifname pools lb lb' af es pool L,
  loopback_interface ifname pools lb = (lb', af, es) ->
  (dget "pool" lb = Some (VStr pool) \/ (dget "pool" lb = None /\ pool = "loopback")) -> L = pools pool ->
  NoDup (map fst L) -> (forall k, In k (map fst L) -> ~ In k fixed_attrs) ->
  (forall k, In k (map fst L) -> loop_rel lb L k (dget k lb') (dget k af)) /\
  (forall k, ~ In k (map fst L) -> ~ In k fixed_attrs -> dget k lb' = dget k lb) /\
  (forall k, ~ In k (map fst L) -> dget k af = None) /\
  dget "type" lb' = Some (VStr "loopback") /\ dget "neighbors" lb' = Some (VList []) /\ dget "virtual_interface" lb' = Some (VBool true) /\
  dget "ifindex" lb' = Some (VInt 0) /\
  (forall s, ifname = Some s -> s <> "" -> dget "ifname" lb' = Some (VStr s)) /\
  (ifname = None -> dget "ifname" lb' = Some (VStr "Loopback")) /\
  (In EUnnumbered es <-> exists k, In (k, PTrue) L) /\
  (forall k, In (EAddress k) es <-> (k = "ipv4" \/ k = "ipv6") /\ exists v, dget k lb' = Some v /\ forall s, v <> VStr s).
Proof.
  intros ifname pools lb lb' af es pool L H PL EL NK NF. unfold loopback_interface in H. cbv zeta in H.
  set (nm := match ifname with Some s => if String.eqb s "" then "Loopback" else s | None => "Loopback" end) in H.
  set (lb1 := dset "ifname" (VStr nm) _) in H.
  assert (O1 : forall k, ~ In k fixed_attrs -> dget k lb1 = dget k lb).
  { intros k N. unfold lb1. rewrite !dget_dset_other; [reflexivity|..]; intros Q; apply N; subst k; cbn; tauto. }
  assert (F1 : dget "type" lb1 = Some (VStr "loopback") /\ dget "neighbors" lb1 = Some (VList []) /\ dget "virtual_interface" lb1 = Some (VBool true) /\
               dget "ifindex" lb1 = Some (VInt 0) /\ dget "ifname" lb1 = Some (VStr nm)).
  { unfold lb1. repeat match goal with |- _ /\ _ => split end;
      repeat first [apply dget_dset_same | rewrite dget_dset_other by discriminate]. }
  clearbody lb1.
  assert (EP : (match dget "pool" lb1 with Some (VStr p) => p | _ => "loopback" end) = pool).
  { rewrite O1; [|intros Q; cbn in Q; repeat (destruct Q as [Q|Q]; [discriminate Q|]); exact Q]. destruct PL as [Q|[Q E]]; rewrite Q; [reflexivity|symmetry; exact E]. }
  rewrite EP in H. rewrite <- EL in H. destruct (fold_left loop_step L (lb1, [], [])) as [[lb2 af2] es2] eqn:F.
  injection H as E1 E2 E3. subst lb2 af2.
  destruct (loop_fold L lb1 [] [] lb' af es2 NK (fun _ _ => eq_refl) F) as [R1 [R2 R3]].
  assert (FX : forall k, In k fixed_attrs -> dget k lb' = dget k lb1).
  { intros k I. apply R1. intros Q. exact (NF k Q I). }
  destruct F1 as [F1 [F2 [F3 [F4 F5]]]].
  split; [|split; [|split; [|split; [|split; [|split; [|split; [|split; [|split; [|split]]]]]]]]].
  - intros k I. specialize (R2 k I). unfold loop_rel, has_own, rd in *. rewrite O1 in R2 by (apply NF; exact I). exact R2.
  - intros k N1 N2. rewrite (proj1 (R1 k N1)). apply O1. exact N2.
  - intros k N. exact (proj2 (R1 k N)).
  - rewrite FX by (cbn; tauto). exact F1.
  - rewrite FX by (cbn; tauto). exact F2.
  - rewrite FX by (cbn; tauto). exact F3.
  - rewrite FX by (cbn; tauto). exact F4.
  - intros s E N. rewrite FX by (cbn; tauto). rewrite F5. unfold nm. rewrite E. apply String.eqb_neq in N. rewrite N. reflexivity.
  - intros E. rewrite FX by (cbn; tauto). rewrite F5. unfold nm. rewrite E. reflexivity.
  - subst es. rewrite R3. cbn [app]. rewrite in_app_iff. split.
    + intros [Q|Q].
      * destruct (filter (fun x : string * pfx => match snd x with PTrue => true | _ => false end) L) as [|[k p] l] eqn:FL; [destruct Q|].
        assert (I : In (k, p) (filter (fun x : string * pfx => match snd x with PTrue => true | _ => false end) L)) by (rewrite FL; left; reflexivity).
        apply filter_In in I. destruct I as [I J]. cbn [snd] in J. destruct p; try discriminate J. exists k. exact I.
      * exfalso. change (In EUnnumbered (flat_map (not_text lb') ["ipv4"; "ipv6"])) in Q. apply in_flat_map in Q. destruct Q as [k [_ Q]]. unfold not_text in Q. destruct (dget k lb') as [[]|]; cbn in Q; repeat (destruct Q as [Q|Q]; [discriminate Q|]); exact Q.
    + intros [k I]. left. assert (J : In (k, PTrue) (filter (fun x : string * pfx => match snd x with PTrue => true | _ => false end) L)) by (apply filter_In; split; [exact I|reflexivity]).
      destruct (filter (fun x : string * pfx => match snd x with PTrue => true | _ => false end) L); [destruct J|]. left. reflexivity.
  - intros k. subst es. rewrite R3. cbn [app]. rewrite in_app_iff.
    assert (NR : forall m, ~ In (EAddress k) (repeat EUnnumbered m)). { intros m Q. apply repeat_spec in Q. discriminate Q. }
    split.
    + intros [Q|Q]; [exfalso; exact (NR _ Q)|]. change (In (EAddress k) (flat_map (not_text lb') ["ipv4"; "ipv6"])) in Q. apply in_flat_map in Q. destruct Q as [j [J Q]].
      assert (KJ : k = j). { unfold not_text in Q. destruct (dget j lb') as [[]|]; cbn in Q; try (destruct Q as [Q|[]]; injection Q as Q; symmetry; exact Q); destruct Q. }
      subst j. split; [destruct J as [J|[J|[]]]; [left|right]; symmetry; exact J|].
      unfold not_text in Q. destruct (dget k lb') as [v|]; [|destruct Q]. exists v. split; [reflexivity|]. intros s E. subst v. destruct Q.
    + intros [J [v [G N]]]. right. change (In (EAddress k) (flat_map (not_text lb') ["ipv4"; "ipv6"])). apply in_flat_map. exists k. split; [destruct J as [J|J]; subst k; cbn; tauto|].
      unfold not_text. rewrite G. destruct v; try (left; reflexivity). exfalso. exact (N _ eq_refl).
Qed.

Example loopback_case :
  loopback_interface (Some "lo0") (fun p => if String.eqb p "loopback" then [("ipv4", PNet "10.0.0.7/32" 32 "10.0.0.7"); ("ipv6", PNet "2001:db8:7::/64" 64 "2001:db8:7::1/64")] else [])
    [("ipv4", VStr "192.168.0.1/32"); ("x", VInt 1)] =
  ([("ipv4", VStr "192.168.0.1/32"); ("x", VInt 1); ("type", VStr "loopback"); ("neighbors", VList []); ("virtual_interface", VBool true);
    ("ifindex", VInt 0); ("ifname", VStr "lo0"); ("ipv6", VStr "2001:db8:7::1/64")], [("ipv6", true)], []).
Proof. vm_compute. reflexivity. Qed.

(* Any other setting of the pool is also copied and becomes an address family of the node. *)
Theorem loopback_families_refuted : exists pools lb lb' af es,
  loopback_interface None pools lb = (lb', af, es) /\ pools "loopback" = [("ipv6", PNet "2001:db8::7/128" 128 "2001:db8::7/128"); ("prefix6", POther "128")] /\
  es = [] /\ dget "prefix6" af = Some true /\ dget "prefix6" lb' = Some (VStr "128").
Proof.
  exists (fun _ => [("ipv6", PNet "2001:db8::7/128" 128 "2001:db8::7/128"); ("prefix6", POther "128")]), []. eexists. eexists. eexists.
  split; [vm_compute; reflexivity|]. repeat split; reflexivity.
Qed.

(* With pools made of addresses only, nodes get nothing but these address families. *)
Theorem loopback_families_exact : forall ifname pools lb lb' af es pool,
  loopback_interface ifname pools lb = (lb', af, es) ->
  (dget "pool" lb = Some (VStr pool) \/ (dget "pool" lb = None /\ pool = "loopback")) ->
  NoDup (map fst (pools pool)) -> (forall k, In k (map fst (pools pool)) -> k = "ipv4" \/ k = "ipv6") ->
  forall k, dget k af <> None -> (k = "ipv4" \/ k = "ipv6") /\ exists s, dget k lb' = Some (VStr s).
Proof.
  intros ifname pools lb lb' af es pool H PL NK AF k G.
  assert (NF : forall k, In k (map fst (pools pool)) -> ~ In k fixed_attrs).
  { intros j I Q. destruct (AF j I) as [E|E]; subst j; cbn in Q; repeat (destruct Q as [Q|Q]; [discriminate Q|]); exact Q. }
  destruct (loopback_exact _ _ _ _ _ _ _ _ H PL eq_refl NK NF) as [A [_ [B _]]].
  destruct (in_dec string_dec k (map fst (pools pool))) as [I|N]; [|exfalso; apply G; apply B; exact N].
  split; [exact (AF k I)|]. destruct (A k I) as [[_ [_ Q]]|[[_ [[p [t [_ [_ Q]]]] _]]|[[_ [_ [_ Q]]]|[_ [_ [_ Q]]]]]]; try (exfalso; exact (G Q)).
  exists t. exact Q.
Qed.

(* ---- modules ---- *)

(* A node without a list of modules gets topology modules unless it is a host that is not a daemon. *)
Theorem node_modules_exact : forall g provider dd n,
  let n' := augment_node_module g provider dd n in
  let dev := get_device_attribute (VDict dd) provider in
  let takes := g <> [] /\ ((dev "role" <> Some (VStr "host") /\ dget "role" n <> Some (VStr "host")) \/ exists v, dev "daemon" = Some v /\ truthy v = true) in
  (forall k, k <> "module" -> dget k n' = dget k n) /\
  (forall m, dget "module" n = Some m -> dget "module" n' = Some m) /\
  (dget "module" n = None -> forall m, dget "module" n' = Some m <-> takes /\ m = VList (map VStr g)).
Proof.
  intros g provider dd n n' dev takes. unfold n', takes, augment_node_module, dmem. fold dev. cbv zeta.
  set (host := fun v : option val => match v with Some (VStr s) => String.eqb s "host" | _ => false end).
  assert (HH : forall v, host v = true <-> v = Some (VStr "host")).
  { intros v. unfold host. destruct v as [[|b|z|s|l|d]|]; try (split; intros Q; discriminate Q). split; [intros Q; apply String.eqb_eq in Q; subst s; reflexivity|intros Q; injection Q as Q; subst s; reflexivity]. }
  change (match dev "role" with Some (VStr s) => String.eqb s "host" | _ => false end) with (host (dev "role")).
  change (match dget "role" n with Some (VStr s) => String.eqb s "host" | _ => false end) with (host (dget "role" n)).
  assert (DM : (match dev "daemon" with Some v => truthy v | None => false end) = true <-> exists v, dev "daemon" = Some v /\ truthy v = true).
  { destruct (dev "daemon") as [v|]; [split; [intros T; exists v; auto|intros [w [Q T]]; injection Q as Q; subst w; exact T]|split; [intros T; discriminate T|intros [w [Q T]]; discriminate Q]]. }
  destruct (dget "module" n) as [m0|] eqn:M.
  { split; [reflexivity|]. split; [intros m Q; rewrite <- Q; exact M|intros Q; discriminate Q]. }
  destruct g as [|g0 gr].
  { split; [reflexivity|]. split; [intros m Q; discriminate Q|]. intros _ m. rewrite M. split; [intros Q; discriminate Q|]. intros [[Q _] _]. exfalso. apply Q. reflexivity. }
  destruct (negb (host (dev "role") || host (dget "role" n)) || (match dev "daemon" with Some v => truthy v | None => false end)) eqn:T.
  - split; [intros k N; apply dget_dset_other; exact N|]. split; [intros m Q; discriminate Q|]. intros _ m. rewrite dget_dset_same. split; [|intros [_ Q]; subst m; reflexivity].
    intros Q. injection Q as Q. subst m. split; [|reflexivity]. split; [discriminate|]. apply orb_true_iff in T. destruct T as [T|T].
    + left. apply negb_true_iff in T. apply orb_false_iff in T. destruct T as [T1 T2]. split; intros Q; apply HH in Q; congruence.
    + right. apply DM. exact T.
  - split; [reflexivity|]. split; [intros m Q; discriminate Q|]. intros _ m. rewrite M. split; [intros Q; discriminate Q|].
    intros [[_ Q] _]. exfalso. apply orb_false_iff in T. destruct T as [T1 T2]. destruct Q as [[Q1 Q2]|Q].
    + apply negb_false_iff in T1. apply orb_true_iff in T1. destruct T1 as [T1|T1]; apply HH in T1; contradiction.
    + apply DM in Q. congruence.
Qed.

Example node_modules_case :
  augment_node_module ["bgp"] "clab" [("role", VStr "host")] [("x", VInt 1)] = [("x", VInt 1)] /\
  augment_node_module ["bgp"] "clab" [("role", VStr "host"); ("clab", VDict [("daemon", VBool true)])] [] = [("module", VList [VStr "bgp"])] /\
  augment_node_module ["bgp"] "clab" [] [("module", VList [])] = [("module", VList [])].
Proof. vm_compute. repeat split; reflexivity. Qed.

(* a module supports a device: its list of supported devices, if any, has it *)
Definition supports (d : val) (dev : string) : Prop :=
  forall s, lookup ["supported_on"] d = Some s -> (exists l, s = VList l /\ In (VStr dev) l) \/ (exists x v, s = VDict x /\ dget dev x = Some v).

(* Every module of a node must be known and support the device of the node; nothing else is reported. *)
Theorem supported_devices_exact : forall defaults name dev mods e,
  In e (check_supported defaults name dev mods) <->
  exists m, In m mods /\ ((dget m defaults = None /\ e = EUnknownModule name m) \/
                          (exists d, dget m defaults = Some d /\ ~ supports d dev /\ e = EUnsupported name m)).
Proof.
  intros defaults name dev mods e. unfold check_supported. rewrite in_flat_map.
  assert (VI : forall s, val_in dev s = true <-> (exists l, s = VList l /\ In (VStr dev) l) \/ (exists x v, s = VDict x /\ dget dev x = Some v)).
  { intros s. destruct s as [|b|z|t|l|d]; cbn [val_in]; try (split; [intros Q; discriminate Q|intros [[l' [Q _]]|[x [v [Q _]]]]; discriminate Q]).
    - rewrite existsb_exists. split.
      + intros [y [I Q]]. left. exists l. split; [reflexivity|]. apply veqb_true in Q. subst y. exact I.
      + intros [[l' [Q I]]|[x [v [Q _]]]]; [|discriminate Q]. injection Q as Q. subst l'. exists (VStr dev). split; [exact I|]. apply veqb_true. reflexivity.
    - unfold dmem. split.
      + intros Q. right. destruct (dget dev d) as [v|] eqn:G; [exists d, v; auto|discriminate Q].
      + intros [[l' [Q I]]|[x [v [Q G]]]]; [discriminate Q|]. injection Q as Q. subst x. rewrite G. reflexivity. }
  assert (SUP : forall d, (match dget "supported_on" (entries d) with Some s => if val_in dev s then @nil merr else [EUnsupported name ""] | None => [] end = []) <-> supports d dev).
  { intros d. unfold supports. split.
    - intros Q s L. apply lookup_entries in L. rewrite L in Q. apply VI. destruct (val_in dev s); [reflexivity|discriminate Q].
    - intros Q. destruct (dget "supported_on" (entries d)) as [s|] eqn:G; [|reflexivity]. rewrite (proj2 (VI s)); [reflexivity|]. apply Q. apply lookup_entries. exact G. }
  split.
  - intros [m [I J]]. exists m. split; [exact I|]. destruct (dget m defaults) as [d|] eqn:G.
    + right. exists d. split; [reflexivity|]. assert (SD := SUP d). destruct (dget "supported_on" (entries d)) as [s|]; [|destruct J].
      destruct (val_in dev s) eqn:V; [destruct J|]. destruct J as [J|[]]. split; [|symmetry; exact J]. intros Q. apply SD in Q. discriminate Q.
    + left. split; [reflexivity|]. destruct J as [J|[]]. symmetry. exact J.
  - intros [m [I J]]. exists m. split; [exact I|]. destruct J as [[G E]|[d [G [NS E]]]]; rewrite G; subst e; [left; reflexivity|].
    assert (SD := SUP d). destruct (dget "supported_on" (entries d)) as [s|]; [|exfalso; apply NS; apply SD; reflexivity].
    destruct (val_in dev s); [exfalso; apply NS; apply SD; reflexivity|left; reflexivity].
Qed.

Example supported_devices_case :
  check_supported [("bgp", VDict [("supported_on", VList [VStr "eos"; VStr "frr"])]); ("x", VDict [])] "r1" "iosv" ["bgp"; "x"; "y"] =
  [EUnsupported "r1" "bgp"; EUnknownModule "r1" "y"].
Proof. vm_compute. reflexivity. Qed.

(* Global parameters of a module: topology settings stay, and module defaults that may propagate are added where the topology says
   nothing. Other parts of the topology stay; modules without defaults are reported. *)
Theorem global_params_exact : forall defaults topo mods topo' es,
  merge_global_module_params defaults topo mods = (topo', es) -> NoDup mods ->
  (forall m d, In m mods -> dget m defaults = Some d -> box d) -> (forall m, In m mods -> obox (dget m topo)) ->
  (forall m, In (ENoDefaults m) es <-> In m mods /\ dget m defaults = None) /\
  (forall m, ~ In m mods \/ dget m defaults = None -> dget m topo' = dget m topo) /\
  (forall m d, In m mods -> dget m defaults = Some d -> forall k q v,
     leaf (k :: q) (node_box (dget m topo')) v <->
     leaf (k :: q) (node_box (dget m topo)) v \/
     (leaf (k :: q) d v /\ propagates d k /\ ~ overridden (k :: q) (node_box (dget m topo)))).
Proof.
  intros defaults topo mods topo' es H. unfold merge_global_module_params in H.
  enough (GEN : forall mods topo es0 topo' es, fold_left (merge_global_one defaults) mods (topo, es0) = (topo', es) -> NoDup mods ->
    (forall m d, In m mods -> dget m defaults = Some d -> box d) -> (forall m, In m mods -> obox (dget m topo)) ->
    (forall m, In (ENoDefaults m) es <-> In (ENoDefaults m) es0 \/ (In m mods /\ dget m defaults = None)) /\
    (forall m, ~ In m mods \/ dget m defaults = None -> dget m topo' = dget m topo) /\
    (forall m d, In m mods -> dget m defaults = Some d -> forall k q v,
       leaf (k :: q) (node_box (dget m topo')) v <->
       leaf (k :: q) (node_box (dget m topo)) v \/
       (leaf (k :: q) d v /\ propagates d k /\ ~ overridden (k :: q) (node_box (dget m topo))))).
  { intros ND BD BT. destruct (GEN _ _ _ _ _ H ND BD BT) as [A [B C]]. split; [|split; assumption].
    intros m. rewrite A. split; [intros [[]|Q]; exact Q|intros Q; right; exact Q]. }
  clear. intros mods. induction mods as [|x r IH]; intros topo es0 topo' es H ND BD BT.
  { injection H as E1 E2. subst. split; [intros m; split; [intros Q; left; exact Q|intros [Q|[[] _]]; exact Q]|]. split; [reflexivity|]. intros m d []. }
  inversion ND as [|y l NX NR]. subst y l. cbn [fold_left] in H.
  destruct (merge_global_one defaults (topo, es0) x) as [topo1 es1] eqn:S.
  assert (ST : (forall m, m <> x -> dget m topo1 = dget m topo) /\
               (forall m, In (ENoDefaults m) es1 <-> In (ENoDefaults m) es0 \/ (m = x /\ dget m defaults = None)) /\
               (dget x defaults = None -> dget x topo1 = dget x topo) /\
               (forall d, dget x defaults = Some d -> forall k q v,
                  leaf (k :: q) (node_box (dget x topo1)) v <->
                  leaf (k :: q) (node_box (dget x topo)) v \/
                  (leaf (k :: q) d v /\ propagates d k /\ ~ overridden (k :: q) (node_box (dget x topo))))).
  { unfold merge_global_one in S. destruct (dget x defaults) as [d|] eqn:G.
    - assert (B := BD x d (or_introl eq_refl) G). assert (OB := BT x (or_introl eq_refl)).
      assert (EE : forall m, In (ENoDefaults m) es0 <-> In (ENoDefaults m) es0 \/ (m = x /\ dget m defaults = None)).
      { intros m. split; [intros Q; left; exact Q|]. intros [Q|[Q1 Q2]]; [exact Q|]. subst m. rewrite G in Q2. discriminate Q2. }
      destruct (truthy (propagated d d)) eqn:T; injection S as E1 E2; subst topo1 es1.
      + split; [intros m N; apply dget_dset_other; exact N|]. split; [exact EE|]. split; [intros Q; discriminate Q|].
        intros d' Q k q v. injection Q as Q. subst d'. rewrite dget_dset_same. cbn [node_box].
        assert (RN : rd x topo = node_box (dget x topo)) by (unfold rd; destruct (dget x topo); reflexivity). rewrite RN.
        rewrite merge_leaves by (exact (proj2 (obox_node_box _ OB))). rewrite leaf_propagated.
        split; [intros [Q|[[Q1 Q2] Q3]]; [left; exact Q|right; auto]|intros [Q|[Q1 [Q2 Q3]]]; [left; exact Q|right; auto]].
      + split; [reflexivity|]. split; [exact EE|]. split; [reflexivity|]. intros d' Q k q v. injection Q as Q. subst d'. split; [intros Q; left; exact Q|].
        intros [Q|[Q1 [Q2 Q3]]]; [exact Q|]. exfalso.
        assert (L : leaf (k :: q) (propagated d d) v) by (apply leaf_propagated; auto).
        rewrite (falsy_box _ (propagated_box d d B) T) in L. destruct L as [L _]. discriminate L.
    - injection S as E1 E2. subst topo1 es1. split; [reflexivity|]. split; [|split; [reflexivity|intros d Q; discriminate Q]].
      intros m. rewrite in_app_iff. split.
      + intros [Q|[Q|[]]]; [left; exact Q|]. injection Q as Q. subst m. right. auto.
      + intros [Q|[Q _]]; [left; exact Q|]. subst m. right. left. reflexivity. }
  clear S. destruct ST as [S1 [S2 [S3 S4]]].
  assert (NEQ : forall m, In m r -> m <> x) by (intros m I Q; subst m; contradiction).
  destruct (IH _ _ _ _ H NR (fun m d I => BD m d (or_intror I)) (fun m I => eq_ind_r (fun o => obox o) (BT m (or_intror I)) (S1 m (NEQ m I)))) as [A [B C]].
  split; [|split].
  - intros m. rewrite A, S2. split.
    + intros [[Q|[Q1 Q2]]|[Q1 Q2]]; [left; exact Q|right; split; [left; symmetry; exact Q1|exact Q2]|right; split; [right; exact Q1|exact Q2]].
    + intros [Q|[[Q1|Q1] Q2]]; [left; left; exact Q|left; right; split; [symmetry; exact Q1|exact Q2]|right; auto].
  - intros m Q. destruct (string_dec m x) as [E|N].
    + subst m. rewrite (B x (or_introl NX)). apply S3. destruct Q as [Q|Q]; [exfalso; apply Q; left; reflexivity|exact Q].
    + rewrite B; [apply S1; exact N|]. destruct Q as [Q|Q]; [left; intros I; apply Q; right; exact I|right; exact Q].
  - intros m d [E|I] G k q v.
    + subst m. rewrite (B x (or_introl NX)). exact (S4 d G k q v).
    + rewrite (C m d I G k q v). rewrite (S1 m (NEQ m I)). reflexivity.
Qed.

Example global_params_case :
  merge_global_module_params
    [("bgp", VDict [("supported_on", VList []); ("as", VInt 65000); ("adv", VDict [("loopback", VBool true)]); ("no_propagate", VList [VStr "as"]); ("x", VInt 1)])]
    [("bgp", VDict [("x", VInt 2)]); ("name", VStr "t")] ["bgp"; "junk"] =
  ([("bgp", VDict [("adv", VDict [("loopback", VBool true)]); ("x", VInt 2)]); ("name", VStr "t")], [ENoDefaults "junk"]).
Proof. vm_compute. reflexivity. Qed.

(* a sorted list of modules *)
Definition sorted_of (known : string -> bool) (requires after : string -> list string) (l out : list string) : Prop :=
  (forall m, count_occ string_dec out m = if known m then count_occ string_dec l m else 0) /\
  (2 <= length (filter known l) -> forall l1 m l2 r, out = l1 ++ m :: l2 -> In r (requires m) \/ In r (after m) -> ~ In r (m :: l2)).

(* Topology modules (with extra modules added) and modules of every node are sorted after modules they depend on; only modules without
   defaults are lost, and nodes without a list of modules stay that way. *)
Theorem reordered_modules_exact : forall known requires after mods extra nodes mods' nodes',
  reorder_node_modules known requires after mods extra nodes = Ok (mods', nodes') ->
  (exists l, (forall m, count_occ string_dec l m = if in_dec string_dec m mods then count_occ string_dec mods m else count_occ string_dec extra m) /\
             sorted_of known requires after l mods') /\
  Forall2 (fun a b => fst b = fst a /\ match snd a with
                                       | None => snd b = None
                                       | Some l => exists out, snd b = Some out /\ sorted_of known requires after l out
                                       end) nodes nodes'.
Proof.
  intros known requires after mods extra nodes mods' nodes' H. unfold reorder_node_modules in H. cbv zeta in H.
  set (l := mods ++ filter (fun m => negb (memS m mods)) extra) in *.
  destruct (match l with [] => Ok [] | _ :: _ => sort_module_list l known requires after end) as [l'|e] eqn:S; [|discriminate H].
  destruct (reorder_nodes known requires after nodes) as [r|e] eqn:R; [|discriminate H]. injection H as E1 E2. subst l' r. split.
  - exists l. split.
    + intros m. unfold l. rewrite count_occ_app.
      assert (CF : count_occ string_dec (filter (fun m => negb (memS m mods)) extra) m = if in_dec string_dec m mods then 0 else count_occ string_dec extra m).
      { clear. induction extra as [|x r IH]; [destruct (in_dec string_dec m mods); reflexivity|]. cbn [filter].
        destruct (memS x mods) eqn:M; cbn [negb].
        - rewrite IH. destruct (in_dec string_dec m mods) as [I|N]; [reflexivity|]. rewrite count_occ_cons_neq; [reflexivity|]. intros Q. subst x. apply N. apply memS_true. exact M.
        - apply memS_false in M. cbn [count_occ]. rewrite IH. destruct (string_dec x m) as [E|N]; [subst x|].
          + destruct (in_dec string_dec m mods) as [I|N]; [contradiction|reflexivity].
          + destruct (in_dec string_dec m mods); reflexivity. }
      rewrite CF. destruct (in_dec string_dec m mods) as [I|N]; [lia|]. rewrite (proj1 (count_occ_not_In string_dec mods m) N). reflexivity.
    + assert (SO : sort_module_list l known requires after = Ok mods').
      { destruct l as [|x r]; [|exact S]. injection S as S. subst mods'. reflexivity. }
      exact (module_sort_sound _ _ _ _ _ SO).
  - clear S l. revert nodes' R. induction nodes as [|[name o] r IH]; intros nodes' R.
    + injection R as R. subst nodes'. constructor.
    + cbn [reorder_nodes] in R. destruct o as [l|].
      * destruct (sort_module_list l known requires after) as [l'|e] eqn:S; [|discriminate R].
        destruct (reorder_nodes known requires after r) as [r'|e]; [|discriminate R]. injection R as R. subst nodes'. constructor; [|apply IH; reflexivity].
        split; [reflexivity|]. cbn [snd]. exists l'. split; [reflexivity|]. exact (module_sort_sound _ _ _ _ _ S).
      * destruct (reorder_nodes known requires after r) as [r'|e]; [|discriminate R]. injection R as R. subst nodes'. constructor; [|apply IH; reflexivity].
        split; reflexivity.
Qed.

Example reordered_modules_case :
  reorder_node_modules (fun m => negb (String.eqb m "?")) (fun m => if String.eqb m "evpn" then ["bgp"; "vxlan"] else []) (fun m => if String.eqb m "vxlan" then ["vlan"] else [])
    ["evpn"; "bgp"; "?"] ["vxlan"; "bgp"; "vlan"] [("a", Some ["evpn"; "bgp"; "vxlan"]); ("h", None)] =
  Ok (["bgp"; "vlan"; "vxlan"; "evpn"], [("a", Some ["bgp"; "vxlan"; "evpn"]); ("h", None)]).
Proof. vm_compute. reflexivity. Qed.

Print Assumptions node_provider_exact.
Print Assumptions node_device_accepted.
Print Assumptions node_device_data_exact.
Print Assumptions forced_provider_checked_refuted.
Print Assumptions node_image_exact.
Print Assumptions provider_pass_exact.
Print Assumptions device_data_copied_exact.
Print Assumptions loopback_exact.
Print Assumptions loopback_families_refuted.
Print Assumptions loopback_families_exact.
Print Assumptions node_modules_exact.
Print Assumptions supported_devices_exact.
Print Assumptions global_params_exact.
Print Assumptions reordered_modules_exact.
