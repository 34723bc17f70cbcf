(** Property theorems C54 (buffer structures). *)
From Coq Require Import List ZArith Bool Lia.
From Verif Require Import ShapesModel ShapesProofs.
Import ListNotations.
Open Scope list_scope.
Open Scope Z_scope.

(** C54: a BufferStructure is accepted exactly if it is a scaling prefix
    followed by at least one integer, with a context size that is a
    non-negative integer and positive only for structures scaling with time. *)
Theorem C54_structure_validation : forall shape ctx,
  structure_valid shape ctx = true <->
  exists k f c, wf_structure shape k f /\ ctx = Some c /\ 0 <= c /\ (c <> 0 -> k = Time).
Proof. exact structure_valid_spec. Qed.
Print Assumptions C54_structure_validation.

(** C54: the same for templates: features are '...', only 'F's or integers. *)
Theorem C54_template_validation : forall shape ctx,
  template_valid shape ctx = true <->
  exists k c, wf_template shape k /\ ctx = Some c /\ 0 <= c /\ (c <> 0 -> k = Time).
Proof. exact template_valid_spec. Qed.
Print Assumptions C54_template_validation.

(** C54: a valid template (except the unscaled '...', see below) matches
    exactly the structures with its scaling and feature dimensions. *)
Theorem C54_template_matching : forall t k s k' f,
  wf_template t k -> wf_structure s k' f -> t <> [DDots] ->
  (template_matches t s = true <-> meant t k' f).
Proof. exact matches_spec. Qed.
Print Assumptions C54_template_matching.

Example C54_example :
  structure_valid [DT; DB; DInt 3; DInt 4] (Some 1) = true /\
  structure_valid [DB; DInt 3] (Some 1) = false /\
  structure_valid [DB; DT; DInt 3] (Some 0) = false /\
  template_valid [DT; DB; DDots] (Some 0) = true /\
  template_matches [DT; DB; DDots] [DT; DB; DInt 3; DInt 4] = true /\
  template_matches [DT; DB; DF] [DT; DB; DInt 3; DInt 4] = false /\
  wf_template [DT; DB; DF] Time /\ wf_structure [DT; DB; DInt 3] Time [3].
Proof.
  do 6 (split; [reflexivity|]). split; [apply (wt_F Time 1); lia | split; [reflexivity | discriminate]].
Qed.

(** The template '...' without scaling prefix matches structures of every
    scaling type. *)
Theorem C54_unscaled_wildcard_matches_everything_refuted :
  template_valid [DDots] (Some 0) = true /\
  forall s k f, wf_structure s k f -> template_matches [DDots] s = true.
Proof.
  split; [reflexivity|]. intros s k f [-> N]. unfold template_matches. simpl.
  destruct k; simpl; [destruct f as [|z f]; [congruence|] | | destruct f]; simpl;
    try reflexivity; now destruct (ints f).
Qed.
Print Assumptions C54_unscaled_wildcard_matches_everything_refuted.

(** C54: combining succeeds exactly for structures agreeing in scaling and in
    all but the last feature dimension, and adds up the last dimensions. *)
Theorem C54_combination : forall shapes,
  shapes <> [] ->
  (forall s, In s shapes -> exists k f, wf_structure s k f) ->
  forall r, combine_buffer_structures shapes = Combined r <->
  exists k fixed lasts, compatible k fixed lasts shapes /\ r = prefix k ++ ints (fixed ++ [sum lasts]).
Proof. exact combine_spec. Qed.
Print Assumptions C54_combination.

(** C54: the combined structure has as many features as its parts together. *)
Theorem C54_combined_size : forall shapes r,
  shapes <> [] ->
  (forall s, In s shapes -> exists k f, wf_structure s k f) ->
  combine_buffer_structures shapes = Combined r ->
  feature_size r = sum (map feature_size shapes) /\ structure_valid r (Some 0) = true.
Proof.
  intros shapes r NE W E. apply (combine_spec shapes NE W) in E.
  destruct E as [k [fixed [lasts [C ->]]]]. split; [eapply combine_size; eauto|].
  apply structure_valid_spec. exists k, (fixed ++ [sum lasts]), 0.
  repeat split; try lia; try congruence. destruct fixed; discriminate.
Qed.
Print Assumptions C54_combined_size.

Example C54_combination_example :
  combine_buffer_structures [[DT; DB; DInt 2; DInt 3]; [DT; DB; DInt 2; DInt 5]] = Combined [DT; DB; DInt 2; DInt 8] /\
  combine_buffer_structures [[DT; DB; DInt 2; DInt 3]; [DT; DB; DInt 3; DInt 3]] = FeatureMismatch.
Proof. split; reflexivity. Qed.
