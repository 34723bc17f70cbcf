(** Property theorems C36 (saving and loading networks). *)
From Coq Require Import String Ascii List Arith Bool ZArith QArith Lia.
From Verif Require Import PyBase PyFacts UtilsModel UtilsProofs ViewRefsModel ArchProofs ViewRefsProofs DescribeModel DescribeProps SaveModel SaveBase SaveProofs.
Import ListNotations.
Open Scope string_scope.
Open Scope list_scope.
Open Scope nat_scope.

(** ** Networks in use *)
(** The modifiers of a network: none, or what set_weight_modifiers or
    set_gradient_modifiers has installed for some references to modifiers or
    lists of modifiers. *)
Definition installed (s : views) (mods : modifiers) : Prop :=
  mods = [] \/ exists t, Forall (fun it => Forall modifier (modifiers_of (snd it))) (leaves t) /\ set_modifiers s t = Some mods.
(** A network of views [s] that was initialised with [t]. *)
Definition in_use (views_of : json -> option views) (n : network) (s : views) (t : irefs) : Prop :=
  views_of (architecture n) = Some s /\ good_views s /\ length (parameters n) = size s /\
  initialize s t = true /\ describe_refs t = Some (initializers n) /\
  installed s (weight_modifiers n) /\ installed s (gradient_modifiers n).

Lemma installed_good s mods : good_views s -> installed s mods -> good_mods s mods.
Proof. intros G [->|[t [L E]]]; [split; [constructor | contradiction]|]. exact (set_modifiers_good s t mods G L E). Qed.
Lemma modifiers_reload s mods : good_views s -> good_mods s mods -> exists j g, describe_modifiers mods = Some j /\ recreate j = Some g /\
  exists mods', set_modifiers s g = Some mods' /\ same_modifiers mods mods'.
Proof.
  intros GV GM. destruct (recreate_refs (mod_tree mods) (mod_tree_clean s mods GV GM)) as [j [t' [D [Cr [T _]]]]]. exists j, (number t' 0). split; [rewrite describe_modifiers_tree; exact D|]. split; [unfold recreate; now rewrite Cr|].
  exact (load_modifiers s mods t' GV GM T).
Qed.

(** C36 for every initialised network whose initializers are numbers, lists,
    arrays or objects of simple parts ([clean_tree]; no Uniform, no array inside
    another initializer) and occur at one place only ([unshared]), with any
    modifiers: saving and loading succeed; architecture, output name and
    parameter values are the same; every view has the same modifiers with the same
    described attributes in the same order. *)
Theorem C36_load_partial : forall views_of n s t,
  in_use views_of n s t -> clean_tree t -> unshared t ->
  exists f n', save_as_hdf5 n = Some f /\ from_hdf5 views_of f = Some n' /\
    architecture n' = architecture n /\ parameters n' = parameters n /\ output_name n' = output_name n /\
    same_modifiers (weight_modifiers n) (weight_modifiers n') /\
    same_modifiers (gradient_modifiers n) (gradient_modifiers n').
Proof.
  intros views_of n s t [V [GV [L [I [D [W G]]]]]] C U.
  destruct (modifiers_reload s _ GV (installed_good s _ GV W)) as [jw [tw [Dw [Rw [mw [Sw Kw]]]]]].
  destruct (modifiers_reload s _ GV (installed_good s _ GV G)) as [jg [tg [Dg [Rg [mg [Sg Kg]]]]]].
  destruct (recreate_refs t C) as [j [t' [Dj [Cr [T _]]]]]. rewrite D in Dj. injection Dj as <-.
  assert (II := recreated_initialize t t' T C s U I).
  destruct (describe_total (number t' 0) (recreated_simple_leaf t t' T C)) as [d' Dd].
  unfold save_as_hdf5. rewrite Dw, Dg. eexists. exists (mkNet (architecture n) d' mw mg (output_name n) (parameters n)). split; [reflexivity|].
  unfold from_hdf5. cbn [f_architecture f_initializers f_gradient_modifiers f_weight_modifiers f_output_name f_parameters]. rewrite V, Rw, Rg. unfold recreate at 1. rewrite Cr. cbn [option_map]. rewrite II, Dd, Sg, Sw, L, Nat.eqb_refl.
  split; [reflexivity|]. repeat (split; [reflexivity|]). split; assumption.
Qed.
Print Assumptions C36_load_partial.

(** C36: modifiers other than MaskValues and FreezeValues work after loading. *)
Theorem C36_modifiers_work : forall layer view c m v', kept_modifier layer view (VObj c m) v' ->
  In c ["ConstrainL2Norm"; "ClipValues"; "L1Decay"; "L2Decay"] -> applicable (VObj c m) = true -> applicable v' = true.
Proof.
  intros layer view c m v' [c0 [m0 [m' [[= <- <-] [-> [Hr [_ [_ H]]]]]]]] HC. cbn [applicable]. rewrite Hr. cbn [andb]. intros A. apply andb_true_iff in A. destruct A as [_ A].
  assert (N : forall x, ~ In x ["rnd"; "layer_name"; "view_name"; "device_mask"; "weights"; "device_weights"] -> has_number x m = true -> has_number x m' = true).
  { intros x Nx Hx. unfold has_number in *. destruct (dget x m) as [a|] eqn:E; [|discriminate]. destruct (H x a E Nx) as [a' [-> R]]. destruct a; try discriminate; inversion R; reflexivity. }
  repeat (destruct HC as [<-|HC]; [cbn [String.eqb Ascii.eqb Bool.eqb] in A |- *; try (apply andb_true_iff in A; destruct A as [A1 A2]; apply andb_true_iff; split); apply N; try assumption; cbn; intuition discriminate|]). contradiction.
Qed.
Print Assumptions C36_modifiers_work.

(** A network with a recurrent and an output layer. *)
Definition arch : json := JStr "Rnn-Out".
Definition shapes : views := [("Out", [("W", [2; 4]); ("bias", [2])]); ("Rnn", [("R", [4; 4]); ("W", [4; 3]); ("bias", [4])])].
Definition views1 (a : json) : option views := Some shapes.
Definition gaussian_init : value := VObj "Gaussian" [("rnd", VOpaque 1); ("std", rat 1 10); ("mean", rat 0 1)].
Definition orthogonal : value := VObj "Orthogonal" [("rnd", VOpaque 2); ("scale", rat 3 2)].
Definition inits : irefs :=
  DDict [("default", DLeaf (1, gaussian_init));
         ("R*", DDict [("R", DLeaf (2, orthogonal)); ("b*", DLeaf (3, VList [VInt 1; VInt 2; VInt 3; VInt 4])); ("default", DLeaf (4, VInt 0))])].
Definition clip : value := VObj "ClipValues" [("rnd", VOpaque 3); ("layer_name", VStr ""); ("view_name", VStr ""); ("low", rat (-1) 1); ("high", rat 1 1)].
Definition constrain : value := VObj "ConstrainL2Norm" [("rnd", VOpaque 4); ("layer_name", VStr ""); ("view_name", VStr ""); ("limit", VInt 2)].
Definition decay : value := VObj "L2Decay" [("rnd", VOpaque 5); ("layer_name", VStr ""); ("view_name", VStr ""); ("factor", rat 1 100)].
Definition wmods : irefs := DDict [("*", DDict [("W", DLeaf (5, VList [clip; constrain]))])].
Definition gmods : irefs := DDict [("default", DLeaf (6, decay))].
Definition values : list pyfloat := map (fun k => Fin (Z.of_nat k # 7)) (seq 0 42).
Definition get_mods (o : option modifiers) : modifiers := match o with Some m => m | None => [] end.
Definition net1 : network :=
  mkNet arch (match describe_refs inits with Some j => j | None => JNone end) (get_mods (set_modifiers shapes wmods)) (get_mods (set_modifiers shapes gmods)) (JStr "Out.outputs") values.

Lemma shapes_good : good_views shapes.
Proof.
  assert (P : forall x, is_valid_layer_name x = true -> (forall c, In c (chars x) -> c <> newline) -> plain_name x).
  { intros x Hx Nl. apply valid_layer_name_spec in Hx. destruct Hx as [N1 [N2 [y [Iy [->| ->]]]]]; [split; [exact Iy | now split]|]. exfalso. apply (Nl newline); [|reflexivity]. rewrite chars_app. apply in_or_app. right. now left. }
  assert (Q : forall x, In x ["Out"; "Rnn"; "W"; "bias"; "R"] -> plain_name x).
  { intros x Hx. apply P; [|intros c Hc; intros ->]; (repeat (destruct Hx as [<-|Hx]; [first [reflexivity | cbn in Hc; intuition discriminate]|])); contradiction. }
  split; [cbn; repeat (constructor; [cbn; intuition discriminate|]); constructor|]. intros layer vs H. cbn in H. destruct H as [[= <- <-]|[[= <- <-]|[]]].
  - split; [apply Q; cbn; tauto|]. split; [cbn; repeat (constructor; [cbn; intuition discriminate|]); constructor|]. intros view sh [[= <- <-]|[[= <- <-]|[]]]; apply Q; cbn; tauto.
  - split; [apply Q; cbn; tauto|]. split; [cbn; repeat (constructor; [cbn; intuition discriminate|]); constructor|]. intros view sh [[= <- <-]|[[= <- <-]|[[= <- <-]|[]]]]; apply Q; cbn; tauto.
Qed.
Lemma simple_obj c m C : NoDup (dkeys m) -> ~ In "@type" (dkeys m) -> In C simple_classes -> c_name C = c ->
  Forall (fun it => dmem (fst it) (all_undescribed C) = true \/ simple (snd it)) m -> simple (VObj c m).
Proof. intros H1 H2 H3 H4 H5. cbn [simple]. split; [exact H1|]. split; [exact H2|]. exists C. split; [exact H3|]. split; [exact H4|]. now apply every_Forall. Qed.
Lemma class_simple c : match find_class library c with Some C => String.eqb (c_name C) c && negb (String.eqb c "Uniform" || String.eqb c "ArrayInitializer") = true | None => False end ->
  exists C, find_class library c = Some C /\ In C simple_classes /\ c_name C = c.
Proof.
  assert (I := fun C => find_class_in library c C). destruct (find_class library c) as [C|]; [|contradiction]. specialize (I C eq_refl). intros H. apply andb_true_iff in H. destruct H as [H1 H2]. apply String.eqb_eq in H1. apply negb_true_iff in H2.
  exists C. split; [reflexivity|]. split; [|exact H1]. apply simple_classes_in; [exact I | rewrite H1; exact H2].
Qed.
Ltac simple_object :=
  match goal with |- simple (VObj ?c ?m) =>
    let C := fresh in let F := fresh in let H1 := fresh in let H2 := fresh in
    destruct (class_simple c eq_refl) as [C [F [H1 H2]]]; apply (simple_obj c m C);
      [cbn; repeat (constructor; [cbn; intuition discriminate|]); constructor | cbn; intuition discriminate | exact H1 | exact H2|];
    cbv in F; injection F as <-;
    repeat (constructor; [first [left; reflexivity | right; exact I]|]); constructor
  end.
Lemma inits_clean : clean_tree inits.
Proof.
  assert (G : simple gaussian_init) by (unfold gaussian_init; simple_object).
  assert (O : simple orthogonal) by (unfold orthogonal; simple_object).
  cbn [clean_tree inits every dkeys map fst snd]. split; [cbn; intuition discriminate|]. split; [left; exact G|]. split; [|exact I]. split; [cbn; intuition discriminate|]. split; [left; exact O|]. split; [|split; [exact I | exact I]].
  cbn. tauto.
Qed.
Lemma inits_unshared : unshared inits.
Proof.
  intros j k a b Lt. cbn [leaves inits flat_map snd app].
  do 4 (destruct j as [|j]; [do 4 (destruct k as [|k]; [try lia; intros [= <-] [= <-]; cbn; try discriminate; reflexivity|]); intros _ E; destruct k; discriminate E|]).
  intros E. destruct j; discriminate E.
Qed.
Lemma mods_ok : Forall (fun it => Forall modifier (modifiers_of (snd it))) (leaves wmods) /\ Forall (fun it => Forall modifier (modifiers_of (snd it))) (leaves gmods).
Proof.
  assert (C1 : modifier clip) by (split; [unfold clip; simple_object | cbn; tauto]).
  assert (C2 : modifier constrain) by (split; [unfold constrain; simple_object | cbn; tauto]).
  assert (C3 : modifier decay) by (split; [unfold decay; simple_object | cbn; tauto]).
  split; constructor; try constructor; try assumption; try constructor; try assumption; constructor.
Qed.
Lemma net1_in_use : in_use views1 net1 shapes inits.
Proof.
  split; [reflexivity|]. split; [exact shapes_good|]. split; [reflexivity|]. split; [vm_compute; reflexivity|]. split; [vm_compute; reflexivity|]. split; right.
  - exists wmods. split; [exact (proj1 mods_ok)|]. vm_compute. reflexivity.
  - exists gmods. split; [exact (proj2 mods_ok)|]. vm_compute. reflexivity.
Qed.
(** The hypotheses hold for it, and it has modifiers for all views. *)
Example C36_example : in_use views1 net1 shapes inits /\ clean_tree inits /\ unshared inits /\
  map (fun it => (fst it, map (fun v => (fst v, length (snd v))) (snd it))) (weight_modifiers net1) = [("Out", [("W", 2)]); ("Rnn", [("W", 2)])] /\
  map (fun it => (fst it, map (fun v => (fst v, length (snd v))) (snd it))) (gradient_modifiers net1) = [("Out", [("W", 1); ("bias", 1)]); ("Rnn", [("R", 1); ("W", 1); ("bias", 1)])] /\
  option_map parameters (match save_as_hdf5 net1 with Some f => from_hdf5 views1 f | None => None end) = Some values /\
  forallb (fun it => forallb (fun v => forallb applicable (snd v)) (snd it)) (weight_modifiers net1) = true.
Proof.
  split; [exact net1_in_use|]. split; [exact inits_clean|]. split; [exact inits_unshared|]. split; [vm_compute; reflexivity|]. split; [vm_compute; reflexivity|]. split; vm_compute; reflexivity.
Qed.

(** ** What fails *)
(** C36 is false of every network that has parameters and was not initialised:
    it can be saved, but not loaded. *)
Theorem C36_uninitialised_refuted : forall views_of a s n layer vs view sh,
  views_of a = Some s -> good_views s -> In (layer, vs) s -> In (view, sh) vs ->
  from_architecture views_of a = Some n ->
  exists f, save_as_hdf5 n = Some f /\ from_hdf5 views_of f = None.
Proof.
  intros views_of a s n layer vs view sh V GV Hl Hv F. unfold from_architecture in F. rewrite V in F. cbn [option_map] in F. injection F as <-.
  eexists. split; [reflexivity|]. unfold from_hdf5. cbn [f_architecture f_initializers f_gradient_modifiers f_weight_modifiers architecture initializers weight_modifiers gradient_modifiers]. rewrite V.
  change (recreate (JDict [])) with (Some (DDict [] : irefs)). assert (X : initialize s (DDict []) = false).
  { unfold initialize. change (labelled same_initializer (DDict [])) with (DDict [] : refs). destruct (resolve_references (view_tree s) (DDict [])) as [[r fb]|] eqn:E; [|reflexivity].
    destruct (forallb _ s) eqn:B; [|reflexivity]. exfalso. rewrite forallb_forall in B. specialize (B _ Hl). rewrite forallb_forall in B. specialize (B _ Hv). cbn [fst snd] in B.
    destruct GV as [ND G]. destruct (G _ _ Hl) as [_ [NV _]]. destruct (resolve_spec _ _ _ _ _ _ E (view_tree_get s layer vs view sh (In_dget _ _ _ ND Hl) (In_dget _ _ _ NV Hv))) as [l [lf [Gl [_ [_ [_ HN]]]]]].
    rewrite Gl in B. destruct l as [|i l]; [discriminate|]. assert (NS : forall v, ~ selects (DDict []) [layer; view] v) by (intros v Sv; inversion Sv; subst; contradiction).
    destruct (HN NS) as [HI _]. refine (lacks_inherits "default" (DDict []) [layer; view] i _ (proj1 (HI i) (or_introl eq_refl))). split; [intros [] | exact I]. }
  repeat match goal with |- context[recreate ?j] => change (recreate j) with (Some (DDict [] : irefs)) end. cbv iota beta. rewrite X. reflexivity.
Qed.
Print Assumptions C36_uninitialised_refuted.
Example C36_uninitialised_example : from_architecture views1 arch = Some (mkNet arch (JDict []) [] [] JNone (repeat (Fin 0) 42)) /\ good_views shapes /\ In ("Rnn", [("R", [4; 4]); ("W", [4; 3]); ("bias", [4])]) shapes.
Proof. split; [vm_compute; reflexivity|]. split; [exact shapes_good | right; now left]. Qed.

Definition initialised_with (t : irefs) : network := mkNet arch (match describe_refs t with Some j => j | None => JNone end) [] [] JNone values.
Ltac in_use_tac := split; [reflexivity|]; split; [exact shapes_good|]; split; [reflexivity|]; split; [vm_compute; reflexivity|]; split; [vm_compute; reflexivity|]; split; left; reflexivity.

(** C36 is false of networks initialised with Uniform: the loaded initializer has
    no random state. *)
Definition uniform_inits : irefs := DDict [("default", DLeaf (1, VObj "Uniform" [("rnd", VOpaque 1); ("low", rat (-1) 10); ("high", rat 1 10)]))].
Theorem C36_uniform_refuted : in_use views1 (initialised_with uniform_inits) shapes uniform_inits /\
  exists f, save_as_hdf5 (initialised_with uniform_inits) = Some f /\ from_hdf5 views1 f = None.
Proof. split; [in_use_tac|]. eexists. split; [vm_compute; reflexivity | vm_compute; reflexivity]. Qed.
Print Assumptions C36_uniform_refuted.

(** C36 is false if an initializer contains an array: it is loaded as a list. *)
Definition nested_inits : irefs :=
  DDict [("Out", DLeaf (1, VInt 0));
         ("Rnn", DDict [("R", DLeaf (2, VObj "SparseInputs" [("rnd", VOpaque 1); ("sub_initializer", VObj "ArrayInitializer" [("rnd", VOpaque 2); ("array", VArr (repeat (JList (repeat (JInt 1) 4)) 4))]); ("connections", VInt 2)]));
                        ("default", DLeaf (3, VInt 0))])].
Theorem C36_nested_array_refuted : in_use views1 (initialised_with nested_inits) shapes nested_inits /\
  exists f, save_as_hdf5 (initialised_with nested_inits) = Some f /\ from_hdf5 views1 f = None.
Proof. split; [in_use_tac|]. eexists. split; [vm_compute; reflexivity | vm_compute; reflexivity]. Qed.
Print Assumptions C36_nested_array_refuted.

(** C36 is false if one initializer object is used for two patterns that match
    the same view: after loading there are two initializers for it. *)
Definition shared_inits : irefs := DDict [("R*", DLeaf (1, gaussian_init)); ("*n", DLeaf (1, gaussian_init)); ("Out", DLeaf (2, VInt 0))].
Theorem C36_shared_refuted : in_use views1 (initialised_with shared_inits) shapes shared_inits /\ clean_tree shared_inits /\
  exists f, save_as_hdf5 (initialised_with shared_inits) = Some f /\ from_hdf5 views1 f = None.
Proof.
  split; [in_use_tac|]. split.
  - assert (G : simple gaussian_init) by (unfold gaussian_init; simple_object). cbn [clean_tree shared_inits every dkeys map fst snd]. split; [cbn; intuition discriminate|]. split; [left; exact G|]. split; [left; exact G|]. split; exact I.
  - eexists. split; [vm_compute; reflexivity | vm_compute; reflexivity].
Qed.
Print Assumptions C36_shared_refuted.

(** C36 is false of the modifiers MaskValues and FreezeValues: after loading the mask
    is a list, which the modifier cannot use, and the frozen weights are lost. *)
Definition mask : value := VObj "MaskValues" [("rnd", VOpaque 3); ("layer_name", VStr ""); ("view_name", VStr ""); ("mask", VArr [JInt 0; JInt 1]); ("device_mask", VNone)].
Definition freeze : value := VObj "FreezeValues" [("rnd", VOpaque 4); ("layer_name", VStr ""); ("view_name", VStr ""); ("weights", VArr [JInt 5; JInt 6]); ("device_weights", VNone)].
Definition lossy_mods : irefs := DDict [("Out", DDict [("bias", DLeaf (5, VList [mask; freeze]))])].
Definition net2 : network := mkNet arch (initializers net1) (get_mods (set_modifiers shapes lossy_mods)) [] JNone values.
Theorem C36_modifier_state_refuted : in_use views1 net2 shapes inits /\ clean_tree inits /\ unshared inits /\
  exists f n' c1 m1 c2 m2 m1' m2', save_as_hdf5 net2 = Some f /\ from_hdf5 views1 f = Some n' /\
    lookup2 "Out" "bias" (weight_modifiers net2) = Some [VObj c1 m1; VObj c2 m2] /\
    lookup2 "Out" "bias" (weight_modifiers n') = Some [VObj c1 m1'; VObj c2 m2'] /\
    applicable (VObj c1 m1) = true /\ applicable (VObj c1 m1') = false /\
    dget "weights" m2 = Some (VArr [JInt 5; JInt 6]) /\ dget "weights" m2' = Some VNone.
Proof.
  split.
  - split; [reflexivity|]. split; [exact shapes_good|]. split; [reflexivity|]. split; [vm_compute; reflexivity|]. split; [vm_compute; reflexivity|]. split; [right | left; reflexivity].
    exists lossy_mods. split; [|vm_compute; reflexivity].
    assert (C1 : modifier mask) by (split; [unfold mask; match goal with |- simple (VObj ?c ?m) => destruct (class_simple c eq_refl) as [C [F [H1 H2]]]; apply (simple_obj c m C); [cbn; repeat (constructor; [cbn; intuition discriminate|]); constructor | cbn; intuition discriminate | exact H1 | exact H2|]; cbv in F; injection F as <- end; repeat (constructor; [first [left; reflexivity | right; cbn; tauto]|]); constructor | cbn; tauto]).
    assert (C2 : modifier freeze) by (split; [unfold freeze; simple_object | cbn; tauto]).
    constructor; [|constructor]. cbn [snd modifiers_of]. constructor; [exact C1|]. constructor; [exact C2 | constructor].
  - split; [exact inits_clean|]. split; [exact inits_unshared|].
    eexists. eexists. eexists. eexists. eexists. eexists. eexists. eexists. split; [vm_compute; reflexivity|]. split; [vm_compute; reflexivity|]. split; [vm_compute; reflexivity|]. split; [vm_compute; reflexivity|]. split; [vm_compute; reflexivity|]. split; [vm_compute; reflexivity|]. split; vm_compute; reflexivity.
Qed.
Print Assumptions C36_modifier_state_refuted.
