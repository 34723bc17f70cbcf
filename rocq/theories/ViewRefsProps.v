(** Property theorems C07 (wildcards) and C08 (reference resolution). *)
From Coq Require Import String Ascii List Arith Bool Lia.
From Verif Require Import PyBase PyFacts UtilsModel UtilsProofs NamesModel ArchModel ArchProofs
  ViewRefsModel ViewRefsProofs.
Import ListNotations.
Open Scope string_scope.
Open Scope list_scope.
Open Scope nat_scope.

(** C07: for every reference and every key made of identifier characters, the
    reference matches exactly the expansions of its stars. *)
Theorem C07_wildcards : forall ref key,
  (forall c, In c (chars key) -> In c identifier_chars) ->
  (ref_match ref key = true <-> expands ref key).
Proof. intros ref key F. rewrite ref_match_spec. now apply glob_identifier. Qed.
Print Assumptions C07_wildcards.

(** C07 for arbitrary keys: an expansion, possibly followed by one newline
    (Python's [$]). *)
Theorem C07_wildcards_any_key : forall ref key,
  ref_match ref key = true <->
  exists k, expands ref k /\ (key = k \/ key = (k ++ String newline "")%string).
Proof. exact ref_match_spec. Qed.
Print Assumptions C07_wildcards_any_key.

(** C07: the computed mapping: a key's references are the ordinary references
    matching it, or just 'default' if there is one and no other matches. *)
Theorem C07_mapping : forall keys references m,
  get_key_to_references_mapping keys references = Ok m ->
  dkeys m = keys /\
  forall key rs, In (key, rs) m -> forall ref,
    In ref rs <-> (In ref references /\ ordinary ref /\ glob ref key) \/
                  (ref = "default" /\ In "default" references /\ no_match references key).
Proof. exact mapping_spec. Qed.
Print Assumptions C07_mapping.

(** C07: an error is raised exactly if some ordinary reference is malformed
    or matches no key. *)
Theorem C07_unmatched_is_error : forall keys references,
  (exists e, get_key_to_references_mapping keys references = Err e) <->
  exists ref, In ref references /\ ordinary ref /\
    (valid_reference ref = false \/ forall key, In key keys -> ~ glob ref key).
Proof. exact mapping_error. Qed.
Print Assumptions C07_unmatched_is_error.

Example C07_example :
  ref_match "L*m_*" "Lstm_1" = true /\ ref_match "L*m_*" "Lst_1" = false /\
  get_key_to_references_mapping ["Lstm_1"; "Rnn"; "out"] ["L*"; "*1"; "default"; "out"]
   = Ok [("Lstm_1", ["L*"; "*1"]); ("Rnn", ["default"]); ("out", ["out"])] /\
  get_key_to_references_mapping ["Lstm_1"] ["Rnn*"] = Err ENoMatch.
Proof. repeat split; reflexivity. Qed.

(** C08, general characterisation for every nesting depth: the values of a
    view are the selected ones if there are any; otherwise the (at most one)
    inherited default; the fallbacks are the inherited fallbacks. *)
Theorem C08_resolution : forall (V : Type) (s : dtree V) R r fb p x,
  resolve_references s R = Ok (r, fb) -> get_by_parts s p = Some (DLeaf x) ->
  exists l lf, get_by_parts r p = Some (DLeaf l) /\ get_by_parts fb p = Some (DLeaf lf) /\
    (forall v, In v lf <-> inherits "fallback" R None p v) /\
    ((exists v, selects R p v) -> forall v, In v l <-> selects R p v) /\
    ((forall v, ~ selects R p v) ->
       (forall v, In v l <-> inherits "default" R None p v) /\ length l <= 1).
Proof. exact @resolve_spec. Qed.
Print Assumptions C08_resolution.

(** C08: well-formed references never fail except for two conflicting
    inherited defaults of the same view. *)
Theorem C08_resolution_total : forall (V : Type) (s : dtree V) R,
  nodup_tree s -> fits R (empty_dict_from s) ->
  (exists r fb, resolve_references s R = Ok (r, fb)) \/
  (resolve_references s R = Err EDefaults /\
   exists p x v1 v2, get_by_parts s p = Some (DLeaf x) /\ (forall v, ~ selects R p v) /\
     inherits "default" R None p v1 /\ inherits "default" R None p v2 /\ v1 <> v2).
Proof. exact @resolve_total. Qed.
Print Assumptions C08_resolution_total.

(** C08, two levels: if exactly one reference matches the layer and exactly
    one of its entries the view, the view gets that entry, whatever defaults
    there are. *)
Theorem C08_specific_wins : forall (V : Type) (s : dtree V) d dv layer view x vals ref1 ref2 r fb,
  NoDup (dkeys d) -> NoDup (dkeys dv) -> vals <> [] ->
  resolve_references s (DDict d) = Ok (r, fb) ->
  get_by_parts s [layer; view] = Some (DLeaf x) ->
  In (ref1, DDict dv) d -> ordinary ref1 -> glob ref1 layer ->
  (forall ref, In ref (dkeys d) -> ordinary ref -> glob ref layer -> ref = ref1) ->
  In (ref2, DLeaf vals) dv -> ordinary ref2 -> glob ref2 view ->
  (forall ref, In ref (dkeys dv) -> ordinary ref -> glob ref view -> ref = ref2) ->
  exists l, get_by_parts r [layer; view] = Some (DLeaf l) /\ forall v, In v l <-> In v vals.
Proof. exact @explicit_name. Qed.
Print Assumptions C08_specific_wins.

(** C08: pruning the resolved references removes exactly the empty entries. *)
Theorem C08_prune : forall r l v,
  NoDup (dkeys r) -> (forall k d, In (k, d) r -> NoDup (dkeys d)) ->
  lookup2 l v (prune_view_references r) =
  match lookup2 l v r with Some [] => None | x => x end.
Proof. exact prune_spec. Qed.
Print Assumptions C08_prune.

(** Inner default 3 for the unmentioned view of A, outer default 1 for the
    layer B. *)
Example C08_example :
  resolve_references
    (DDict [("A", DDict [("W", DLeaf tt); ("b", DLeaf tt)]); ("B", DDict [("W", DLeaf tt)])])
    (DDict [("default", DLeaf [1]); ("A", DDict [("W", DLeaf [2]); ("default", DLeaf [3]); ("fallback", DLeaf [4])])])
  = Ok (DDict [("A", DDict [("W", DLeaf [2]); ("b", DLeaf [3])]); ("B", DDict [("W", DLeaf [1])])],
        DDict [("A", DDict [("W", DLeaf [4]); ("b", DLeaf [4])]); ("B", DDict [("W", DLeaf [])])]) /\
  prune_view_references [("A", [("W", [4]); ("b", [])]); ("B", [("W", [])])] = [("A", [("W", [4])])].
Proof. split; reflexivity. Qed.
Example C08_example_fits :
  nodup_tree (DDict [("A", DDict [("W", DLeaf tt); ("b", DLeaf tt)])]) /\
  fits (DDict [("default", DLeaf [1]); ("A", DDict [("W", DLeaf [2]); ("default", DLeaf [3])])])
    (empty_dict_from (DDict [("A", DDict [("W", DLeaf tt); ("b", DLeaf tt)])])).
Proof.
  split.
  - constructor; simpl.
    + repeat constructor. intros [].
    + intros k t [[= <- <-]|[]]. constructor; simpl.
      * repeat constructor; simpl; intuition discriminate.
      * intros k t [[= <- <-]|[[= <- <-]|[]]]; constructor.
  - constructor.
    + reflexivity.
    + intros x [= <-]. eauto.
    + discriminate.
    + intros ref R k t [[= <- <-]|[[= <- <-]|[]]] [[= <- <-]|[]] Hr; constructor.
      * reflexivity.
      * intros x [= <-]. eauto.
      * discriminate.
      * intros ref R k t [[= <- <-]|[[= <- <-]|[]]] _ _; constructor.
Qed.

(** C08 refuted as stated ("the default applies iff no reference matched"):
    with overlapping patterns the view A1.W is matched by '*1' -> 'W' (value
    2), and still also gets the default 1 of 'A*'. *)
Theorem C08_default_only_if_unmatched_refuted :
  exists (s : dtree unit) R r fb,
    R = DDict [("A*", DDict [("default", DLeaf [1])]); ("*1", DDict [("W", DLeaf [2])])] /\
    resolve_references s R = Ok (r, fb) /\
    get_by_parts r ["A1"; "W"] = Some (DLeaf [1; 2]).
Proof.
  exists (DDict [("A1", DDict [("W", DLeaf tt)])]).
  do 3 eexists. repeat split; reflexivity.
Qed.
Print Assumptions C08_default_only_if_unmatched_refuted.

(** A dictionary as default value is a TypeError as soon as a layer uses it. *)
Theorem C08_dict_default_refuted :
  exists (s : dtree unit) R,
    R = DDict [("default", DDict [("W", DLeaf [1])])] /\
    get_by_parts s ["A"; "W"] = Some (DLeaf tt) /\
    resolve_references s R = Err EUnhashable.
Proof. exists (DDict [("A", DDict [("W", DLeaf tt)])]). eexists. repeat split; reflexivity. Qed.
Print Assumptions C08_dict_default_refuted.
