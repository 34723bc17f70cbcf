(** Property theorems C03-C06: layer order and validation of architectures. *)
From Coq Require Import String Ascii List Arith Bool Lia Permutation Relations.
From Verif Require Import PyBase PyFacts UtilsModel NamesModel ArchModel ArchProofs.
Import ListNotations.
Open Scope string_scope.
Open Scope list_scope.
Open Scope nat_scope.

(** An example architecture (a diamond), used below. *)
Definition diamond : raw_arch :=
  [("C", mkRaw (TypeString "FullyConnected") (OutDict [("default", ["D"; "D.b"])]));
   ("Input", mkRaw (TypeString "Input") (OutDict [("default", ["B.default"; "A"])]));
   ("A", mkRaw (TypeString "FullyConnected") (OutList ["C"]));
   ("D", mkRaw (TypeString "Loss") (OutList []));
   ("B", mkRaw (TypeString "FullyConnected") (OutList ["C.default"]))].
Definition cyclic_arch : raw_arch :=
  [("Input", mkRaw (TypeString "Input") (OutList ["A"]));
   ("A", mkRaw (TypeString "FullyConnected") (OutList ["B"]));
   ("B", mkRaw (TypeString "FullyConnected") (OutList ["A"]))].

Ltac nodup := repeat (constructor; [simpl; intuition discriminate|]); constructor.

(** C03: acyclic architectures are ordered topologically, each layer once. *)
Theorem C03_acyclic_ordered : forall a cns,
  NoDup (dkeys a) -> collect_all_connections a = Some cns ->
  (forall c, In c cns -> In (c_end c) (dkeys a)) -> acyclic cns ->
  exists l, get_canonical_layer_order a = OrderOk l /\ Permutation l (dkeys a) /\
            forall c, In c cns -> before l (c_start c) (c_end c).
Proof. exact topo_order. Qed.
Print Assumptions C03_acyclic_ordered.

(** C03: cyclic architectures raise the AssertionError. *)
Theorem C03_cyclic_rejected : forall a cns,
  NoDup (dkeys a) -> collect_all_connections a = Some cns ->
  (forall c, In c cns -> In (c_end c) (dkeys a)) -> ~ acyclic cns ->
  get_canonical_layer_order a = OrderAssertionError.
Proof. exact cyclic_rejected. Qed.
Print Assumptions C03_cyclic_rejected.

Example C03_example :
  get_canonical_layer_order diamond = OrderOk ["Input"; "A"; "B"; "C"; "D"] /\
  get_canonical_layer_order cyclic_arch = OrderAssertionError.
Proof. split; vm_compute; reflexivity. Qed.
Example C03_example_hypotheses :
  NoDup (dkeys cyclic_arch) /\ exists cns, collect_all_connections cyclic_arch = Some cns /\
    (forall c, In c cns -> In (c_end c) (dkeys cyclic_arch)) /\ ~ acyclic cns.
Proof.
  split; [nodup|]. eexists. split; [vm_compute; reflexivity|]. split.
  - intros c. simpl. intuition (subst; simpl; auto).
  - intros A. apply (A "A"). apply t_trans with "B"; apply t_step.
    + exists (mkCon "A" "default" "B" "default"). simpl. auto.
    + exists (mkCon "B" "default" "A" "default"). simpl. auto.
Qed.
Example C03_example_acyclic :
  NoDup (dkeys diamond) /\ exists cns, collect_all_connections diamond = Some cns /\
    (forall c, In c cns -> In (c_end c) (dkeys diamond)) /\ acyclic cns.
Proof.
  split; [nodup|]. eexists. split; [vm_compute; reflexivity|]. split.
  - intros c. simpl. intuition (subst; simpl; auto 10).
  - intros x Cy.
    set (rank := fun s => if String.eqb s "Input" then 0 else if String.eqb s "A" then 1
                          else if String.eqb s "B" then 1 else if String.eqb s "C" then 2 else 3).
    assert (M : forall u v, clos_trans string (edge [mkCon "A" "default" "C" "default";
       mkCon "B" "default" "C" "default"; mkCon "C" "default" "D" "b";
       mkCon "C" "default" "D" "default"; mkCon "Input" "default" "A" "default";
       mkCon "Input" "default" "B" "default"]) u v -> rank u < rank v).
    { induction 1 as [u v [c [Hc [<- <-]]]|]; [|lia].
      simpl in Hc. intuition (subst; vm_compute; lia). }
    apply M in Cy. lia.
Qed.

(** C04: the result is the same for all dictionary and list orders. *)
Theorem C04_order_canonical : forall a1 a2,
  arch_same a1 a2 -> get_canonical_layer_order a1 = get_canonical_layer_order a2.
Proof. exact order_canonical. Qed.
Print Assumptions C04_order_canonical.

Theorem C04_connections_canonical : forall a1 a2,
  arch_same a1 a2 -> collect_all_connections a1 = collect_all_connections a2.
Proof. exact collect_same. Qed.
Print Assumptions C04_connections_canonical.

(** C04: it is the order by decreasing length of the longest path that starts
    in the layer, then by name. *)
Theorem C04_order_by_height_and_name : forall a cns l x y,
  NoDup (dkeys a) -> collect_all_connections a = Some cns ->
  (forall c, In c cns -> In (c_end c) (dkeys a)) ->
  get_canonical_layer_order a = OrderOk l -> before l x y ->
  exists hx hy, height cns x hx /\ height cns y hy /\
    (hy < hx \/ (hx = hy /\ String.leb x y = true)).
Proof. exact order_sorted. Qed.
Print Assumptions C04_order_by_height_and_name.

Definition diamond_permuted : raw_arch :=
  [("Input", mkRaw (TypeString "Input") (OutDict [("default", ["A"; "B.default"])]));
   ("A", mkRaw (TypeString "FullyConnected") (OutList ["C"]));
   ("B", mkRaw (TypeString "FullyConnected") (OutList ["C.default"]));
   ("C", mkRaw (TypeString "FullyConnected") (OutDict [("default", ["D.b"; "D"])]));
   ("D", mkRaw (TypeString "Loss") (OutList []))].
Example C04_example : arch_same diamond diamond_permuted /\ before ["Input"; "A"; "B"; "C"; "D"] "A" "B".
Proof.
  split.
  - eexists [("Input", _); ("A", _); ("B", _); ("C", _); ("D", _)]. split.
    + unfold diamond.
      etransitivity; [apply perm_swap|]. apply perm_skip.
      etransitivity; [apply perm_swap|]. apply perm_skip.
      etransitivity; [apply Permutation_cons_append|]. simpl.
      etransitivity; [apply perm_swap|]. apply perm_skip. apply perm_swap.
    + repeat constructor; simpl;
        try (eexists; split; [apply Permutation_refl | repeat constructor; simpl]); try apply perm_swap.
  - exists ["Input"], [], ["C"; "D"]. reflexivity.
Qed.

(** C05: the Input layer is first (and only once). *)
Theorem C05_input_first : forall a cns l,
  NoDup (dkeys a) -> validate_architecture a = Accepted ->
  collect_all_connections a = Some cns ->
  (forall n, In n (dkeys a) -> n <> "Input" -> exists c, In c cns /\ c_end c = n) ->
  get_canonical_layer_order a = OrderOk l ->
  exists r, l = "Input" :: r /\ ~ In "Input" r.
Proof. exact input_first. Qed.
Print Assumptions C05_input_first.

Example C05_example :
  NoDup (dkeys diamond) /\ validate_architecture diamond = Accepted /\
  exists cns, collect_all_connections diamond = Some cns /\
   (forall n, In n (dkeys diamond) -> n <> "Input" -> exists c, In c cns /\ c_end c = n) /\
   exists l, get_canonical_layer_order diamond = OrderOk l.
Proof.
  split; [nodup|]. split; [vm_compute; reflexivity|].
  eexists. split; [vm_compute; reflexivity|]. split; [|eexists; vm_compute; reflexivity].
  intros n Hn N. simpl in Hn.
  destruct Hn as [<-|[<-|[<-|[<-|[<-|[]]]]]]; try (exfalso; now apply N).
  - exists (mkCon "A" "default" "C" "default"). simpl. auto.
  - exists (mkCon "Input" "default" "A" "default"). simpl. auto 10.
  - exists (mkCon "C" "default" "D" "b"). simpl. auto 10.
  - exists (mkCon "Input" "default" "B" "default"). simpl. auto 10.
Qed.

(** Without the condition on incoming connections another layer can come
    first: then forward_pass, which skips the first layer, does not run it. *)
Theorem C05_dangling_layer_first_refuted :
  exists a r, NoDup (dkeys a) /\ validate_architecture a = Accepted /\
    get_canonical_layer_order a = OrderOk ("A" :: r) /\ In "Input" r.
Proof.
  exists [("Input", mkRaw (TypeString "Input") (OutList ["B"]));
          ("A", mkRaw (TypeString "FullyConnected") (OutList ["B"]));
          ("B", mkRaw (TypeString "FullyConnected") (OutList []))], ["Input"; "B"].
  split; [nodup|]. split; [vm_compute; reflexivity|]. split; [vm_compute; reflexivity | simpl; auto].
Qed.
Print Assumptions C05_dangling_layer_first_refuted.

(** C06: validation accepts exactly the well-formed architectures: types are
    strings, connections lists or dicts, names valid, all connections end in
    defined layers other than Input, and a layer Input of type Input exists. *)
Theorem C06_validation_exact : forall a,
  NoDup (dkeys a) -> (validate_architecture a = Accepted <-> well_formed a).
Proof. exact validate_spec. Qed.
Print Assumptions C06_validation_exact.

(** C06: the names accepted by is_valid_layer_name. *)
Theorem C06_valid_names : forall s,
  is_valid_layer_name s = true <->
  s <> "default" /\ s <> "fallback" /\
  exists t, identifier t /\ (s = t \/ s = (t ++ String newline "")%string).
Proof. exact valid_layer_name_spec. Qed.
Print Assumptions C06_valid_names.

Example C06_example :
  well_formed diamond /\ identifier "layer_1" /\ is_valid_layer_name "1layer" = false.
Proof.
  split; [apply C06_validation_exact; [nodup | vm_compute; reflexivity]|].
  split; [|reflexivity].
  exists "l"%char, (chars "ayer_1"). split; [reflexivity|]. split.
  - apply existsb_ascii. reflexivity.
  - intros d Hd. apply existsb_ascii. simpl in Hd.
    repeat destruct Hd as [<-|Hd]; try reflexivity. destruct Hd.
Qed.

(** "There is exactly one Input layer" does not hold: several layers of type
    Input are accepted. *)
Theorem C06_exactly_one_input_refuted :
  exists a n1 n2 l1 l2, NoDup (dkeys a) /\ validate_architecture a = Accepted /\
    In (n1, l1) a /\ In (n2, l2) a /\ n1 <> n2 /\
    r_type l1 = TypeString "Input" /\ r_type l2 = TypeString "Input".
Proof.
  exists [("Input", mkRaw (TypeString "Input") (OutList ["A"]));
          ("Input2", mkRaw (TypeString "Input") (OutList ["A"]));
          ("A", mkRaw (TypeString "FullyConnected") (OutList []))], "Input", "Input2".
  do 2 eexists. split; [nodup|]. split; [vm_compute; reflexivity|].
  split; [now left|]. split; [right; now left|]. repeat split; discriminate.
Qed.
Print Assumptions C06_exactly_one_input_refuted.

(** "All layer names are identifiers" does not hold: a trailing newline is
    accepted. *)
Theorem C06_names_are_identifiers_refuted :
  exists a n, NoDup (dkeys a) /\ validate_architecture a = Accepted /\
    In n (dkeys a) /\ ~ identifier n.
Proof.
  exists [("Input", mkRaw (TypeString "Input") (OutList []));
          (("foo" ++ String newline "")%string, mkRaw (TypeString "FullyConnected") (OutList []))].
  eexists. split; [nodup|]. split; [vm_compute; reflexivity|].
  split; [right; now left|].
  intros [c [r [E [_ F]]]]. simpl in E. injection E as <- <-.
  assert (In newline identifier_chars) by (apply F; simpl; auto).
  apply existsb_ascii in H. discriminate.
Qed.
Print Assumptions C06_names_are_identifiers_refuted.

(** "If it rejects, one of these is violated": a layer without
    '@outgoing_connections' passes the schema check but causes a KeyError. *)
Theorem C06_missing_connections_keyerror : forall a,
  (forall n l, In (n, l) a -> (exists t, r_type l = TypeString t) /\ r_out l <> OutOther /\
                              is_valid_layer_name n = true) ->
  (exists n l, In (n, l) a /\ r_out l = OutMissing) ->
  validate_architecture a = KeyError.
Proof.
  intros a H E. unfold validate_architecture.
  assert (H1 : forallb (fun it => schema_ok (snd it)) a = true).
  { apply forallb_forall. intros [n l] I. destruct (H n l I) as [[t T] [O _]].
    unfold schema_ok. simpl. rewrite T. destruct (r_out l); congruence. }
  assert (H2 : forallb is_valid_layer_name (dkeys a) = true).
  { apply forallb_forall. intros n I. apply in_map_iff in I. destruct I as [[n' l] [<- I]].
    now apply (H n' l). }
  rewrite H1, H2. simpl.
  assert (C : collect_all_connections a = None).
  { apply collect_none; [|assumption]. intros n l I. now apply (H n l). }
  now rewrite C.
Qed.
Print Assumptions C06_missing_connections_keyerror.
Example C06_keyerror_example :
  validate_architecture [("Input", mkRaw (TypeString "Input") OutMissing)] = KeyError.
Proof. reflexivity. Qed.
