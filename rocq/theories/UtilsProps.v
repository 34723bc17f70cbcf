(** Property theorems C52 (path normalisation) and C53 (nested containers). *)
From Coq Require Import String Ascii List Arith Bool Lia.
From Verif Require Import PyBase PyFacts UtilsModel UtilsProofs.
Import ListNotations.
Open Scope string_scope.
Open Scope list_scope.
Open Scope nat_scope.

(** C52, for arguments consisting of some '..' followed by one or more
    components: the result is the path reached by walking like in a directory
    tree; leaving the root is an IndexError.  (Full claim "each '..' cancels
    one preceding component": see the two refutations below for '..' at other
    places.) *)
Theorem C52_paths_like_directories_partial : forall args, Forall wf_arg args ->
  get_normalized_path (map render args) =
  match walk [] args with
  | None => PathIndexError
  | Some l => PathOk (String.concat "." l)
  end.
Proof. exact normalized_path_spec. Qed.
Print Assumptions C52_paths_like_directories_partial.

Theorem C52_normalisation_idempotent : forall args s, args <> [] -> Forall wf_arg args ->
  get_normalized_path (map render args) = PathOk s -> get_normalized_path [s] = PathOk s.
Proof. exact normalized_idempotent. Qed.
Print Assumptions C52_normalisation_idempotent.

Example C52_example :
  map render [mkArg 0 ["a"; "b"; "c"]; mkArg 2 ["d"]; mkArg 1 ["e"; "f"]]
    = ["a.b.c"; "....d"; "..e.f"] /\
  Forall wf_arg [mkArg 0 ["a"; "b"; "c"]; mkArg 2 ["d"]; mkArg 1 ["e"; "f"]] /\
  get_normalized_path ["a.b.c"; "....d"; "..e.f"] = PathOk "a.e.f" /\
  get_normalized_path ["a"; "....d"] = PathIndexError.
Proof.
  split; [reflexivity|]. split; [|split; reflexivity].
  repeat constructor; simpl; try discriminate; intuition discriminate.
Qed.

(** '..' inside an argument is not cancelled but leaks as '@'. *)
Theorem C52_dotdot_inside_argument_refuted :
  get_normalized_path ["a..b"] = PathOk "a@b" /\
  get_normalized_path ["a.b...c"] = PathOk "a.b@.c".
Proof. split; reflexivity. Qed.
Print Assumptions C52_dotdot_inside_argument_refuted.

(** A final '..' leaves an empty component behind. *)
Theorem C52_final_dotdot_refuted :
  get_normalized_path ["a"; "b"; ".."] = PathOk "a." /\ get_normalized_path ["a."] = PathAssertionError.
Proof. split; reflexivity. Qed.
Print Assumptions C52_final_dotdot_refuted.

(** C53: the nested index structure has the same nesting and its leaves are
    0, 1, ..., n-1 in order. *)
Theorem C53_nested_indices : forall (A : Type) (c : list (nested A)),
  flatten (convert_to_nested_indices c) = seq 0 (length (flatten c)) /\
  same_shapes c (convert_to_nested_indices c).
Proof. exact @convert_spec. Qed.
Print Assumptions C53_nested_indices.

(** C53: the index found at the position of an element is the element's
    position in the flattened container. *)
Theorem C53_index_of_element : forall (A : Type) (c : list (nested A)) p a,
  leaf_pos c p a ->
  exists i, leaf_pos (convert_to_nested_indices c) p i /\ nth_error (flatten c) i = Some a.
Proof. exact @convert_positions. Qed.
Print Assumptions C53_index_of_element.

Example C53_example :
  convert_to_nested_indices [Leaf "a"; Node [Leaf "b"; Node []; Leaf "c"]; Leaf "d"]
    = [Leaf 0; Node [Leaf 1; Node []; Leaf 2]; Leaf 3] /\
  leaf_pos [Leaf "a"; Node [Leaf "b"; Node []; Leaf "c"]; Leaf "d"] [1; 2] "c".
Proof.
  split; [reflexivity|]. eapply lp_node; [reflexivity|]. now apply lp_leaf.
Qed.

(** C53: flatten_keys lists exactly the dotted paths of the leaves, and
    get_by_path finds every listed leaf. *)
Theorem C53_flatten_keys : forall (V : Type) (t : dtree V) s,
  In s (flatten_keys t) <-> exists p v, leaf_at t p v /\ s = String.concat "." p.
Proof. exact @flatten_keys_spec. Qed.
Print Assumptions C53_flatten_keys.

Theorem C53_get_by_path : forall (V : Type) (t : dtree V) p v,
  wf_tree t -> leaf_at t p v -> get_by_path t (String.concat "." p) = Some (DLeaf v).
Proof. exact @get_by_path_leaf. Qed.
Print Assumptions C53_get_by_path.

Example C53_dict_example :
  let t := DDict [("a", DLeaf 1); ("b", DDict [("x", DLeaf 2); ("y", DDict [])])] in
  flatten_keys t = ["a"; "b.x"] /\ wf_tree t /\ leaf_at t ["b"; "x"] 2.
Proof.
  split; [reflexivity|]. split.
  - constructor; [repeat constructor; simpl; intuition discriminate|].
    intros k t [H|[H|[]]]; injection H as <- <-; (split; [simpl; intuition discriminate|]).
    + constructor.
    + constructor; [repeat constructor; simpl; intuition discriminate|].
      intros k t [H|[H|[]]]; injection H as <- <-; (split; [simpl; intuition discriminate|]).
      * constructor.
      * constructor; [constructor | intros ? ? []].
  - eapply la_dict; [right; left; reflexivity|]. constructor. now left.
Qed.
