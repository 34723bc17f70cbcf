(** C50 in the memory of a network: what clear_backward_buffers does to the buffers of the
    layers. *)
From Coq Require Import String List Arith Bool Lia Permutation.
From Verif Require Import PyBase PyFacts UtilsModel UtilsProofs HubModel HubProofs LayoutModel LayoutProofs LayoutProps BuffersModel BuffersProofs BuffersProps.
Import ListNotations.
Open Scope string_scope.
Open Scope list_scope.
Open Scope nat_scope.

Section Clear.
Variable V : Type.
Variable zero : V.
Lemma clear_backward_spec hubs T B k h row f m :
  nth_error hubs k = Some h -> row < hub_rows h T B -> f < h_size h ->
  let A := hub_base hubs T B k + row * h_size h + f in
  clear_backward_buffers V zero hubs T B m A = if h_bwd h then zero else m A.
Proof.
  intros Hk Hr Hf A. unfold clear_backward_buffers.
  rewrite (fold_cells V _ (fun kh : nat * hub => fst kh =? k) (fun v => if h_bwd h then zero else v)).
  - replace (existsb _ _) with true; [reflexivity|]. symmetry. apply existsb_exists. exists (k, h). split; [now apply (enum_spec hubs) | apply Nat.eqb_refl].
  - intros m' [k' h'] Hin Hne. apply (enum_spec hubs) in Hin. cbn in Hne. apply Nat.eqb_neq in Hne. destruct (h_bwd h'); [|reflexivity].
    apply write_block_out. rewrite repeat_length. intros R. apply Hne. exact (cell_in_hub hubs T B k h row f Hk Hr Hf k' h' Hin R).
  - intros m' [k' h'] Hin He. apply (enum_spec hubs) in Hin. cbn in He. apply Nat.eqb_eq in He. subst k'. rewrite Hk in Hin. injection Hin as <-.
    destruct (h_bwd h); [|reflexivity]. rewrite write_block_in; [apply nth_repeat|]. rewrite repeat_length, hub_cells_rows. unfold A.
    assert (row * h_size h + h_size h <= hub_rows h T B * h_size h) by nia. lia.
  - intros v. destruct (h_bwd h); reflexivity.
Qed.
End Clear.

Lemma hub_bwd layers hubs lay k h i p st : wf_layers layers -> create_layout layers = LOk (hubs, lay) ->
  nth_error hubs k = Some h -> nth_error (h_sources h) i = Some p -> dget p (stub layers) = Some st -> ls_bwd st = h_bwd h.
Proof.
  intros W L Hk Hi Hst. destruct (create_layout_parts _ _ _ L) as [fos [cns [hubs0 [Hf [Hc [Hh [-> ->]]]]]]].
  assert (Hin : In h hubs0) by (apply (lhubs_In hubs0); eapply nth_error_In; eauto).
  destruct (hub_ok_of layers fos cns hubs0 Hh h Hin) as [src [snk [[_ [_ [_ [S _]]]] _]]].
  destruct (S i p Hi) as [st' [E [_ [_ [_ Hb]]]]]. cbn in E. rewrite Hst in E. now injection E as <-.
Qed.
(** The structure of an array, as the layer declared it *)
Lemma arrays_struct layers l c x st : wf_layers layers -> In l layers -> In (x, st) (arrays_of l c) ->
  dget (path3 (l_name l) c x) (stub layers) = Some (if smem c ["output_deltas"; "gradients"] then backward_only st else st).
Proof.
  intros W Hl Hx. apply In_dget; [now apply stub_NoDup|]. apply stub_In. exists l, c. unfold arrays_of in Hx.
  destruct (String.eqb_spec c "outputs") as [->|N1]; [exists (l_out l), x; simpl; tauto|].
  destruct (String.eqb_spec c "output_deltas") as [->|N2]; [exists (backward_entries (l_out l)), x; split; [assumption|]; split; [simpl; tauto|]; split; [apply backward_entries_In; eauto | reflexivity]|].
  destruct (String.eqb_spec c "parameters") as [->|N3]; [exists (l_params l), x; simpl; tauto|].
  destruct (String.eqb_spec c "gradients") as [->|N4]; [exists (backward_entries (l_params l)), x; split; [assumption|]; split; [simpl; tauto|]; split; [apply backward_entries_In; eauto | reflexivity]|].
  destruct (String.eqb_spec c "internals") as [->|N5]; [|destruct Hx]. exists (l_int l), x. simpl. tauto.
Qed.

(** C50: at the start of a backward pass every delta, every gradient and every internal
    declared is_backward_only is zero, whatever was in memory, and every other buffer of
    a layer is left alone. *)
Theorem C50_cleared : forall (V : Type) (zero : V) layers hubs lay,
  wf_layers layers -> create_layout layers = LOk (hubs, lay) ->
  forall l c x st T B a idx (m : memory V),
  In l layers -> In (x, st) (arrays_of l c) ->
  array_view layers hubs lay T B (path3 (l_name l) c x) = Some a -> in_range a idx ->
  clear_backward_buffers V zero hubs T B m (address a idx) =
  if String.eqb c "output_deltas" || String.eqb c "gradients" || ls_bwd st then zero else m (address a idx).
Proof.
  intros V zero layers hubs lay W L l c x st T B a idx m Hl Hx Va R.
  assert (Hst := arrays_struct layers l c x st W Hl Hx). assert (Hn := in_map fst _ _ Hx). cbn [fst] in Hn.
  destruct (arrays_cat l c x Hn) as [Ho [d [Hd Hxd]]].
  destruct (owned_address layers W hubs lay L l c d x T B a idx Hl Hd Hxd Ho Va R) as [k [h [i [st' [row [f [Hk [Hi [Hst' [_ [Hf [Hr ->]]]]]]]]]]]].
  rewrite (clear_backward_spec V zero hubs T B k h row f m Hk Hr Hf). rewrite <- (hub_bwd layers hubs lay k h i _ _ W L Hk Hi Hst').
  rewrite Hst in Hst'. injection Hst' as <-. unfold smem. cbn [existsb].
  rewrite orb_false_r. destruct (String.eqb c "output_deltas"); [reflexivity|]. destruct (String.eqb c "gradients"); reflexivity.
Qed.
Print Assumptions C50_cleared.

(** The deltas of the recurrent layer of a small network are cleared, its outputs are not. *)
Example C50_cleared_case : forall hubs lay T B a d t b (m : memory nat),
  create_layout ex_skip = LOk (hubs, lay) ->
  array_view ex_skip hubs lay T B "R.outputs.default" = Some a -> array_view ex_skip hubs lay T B "R.output_deltas.default" = Some d ->
  in_range a [t; b; 0] -> in_range d [t; b; 0] ->
  clear_backward_buffers nat 0 hubs T B m (address d [t; b; 0]) = 0 /\ clear_backward_buffers nat 0 hubs T B m (address a [t; b; 0]) = m (address a [t; b; 0]).
Proof.
  intros hubs lay T B a d t b m L Va Vd Ra Rd. set (l := nth 1 ex_skip (mkLayer "" [] [] [] [] [])).
  assert (Hl : In l ex_skip) by (simpl; tauto). split.
  - rewrite (C50_cleared nat 0 ex_skip hubs lay ex_skip_wf L l "output_deltas" "default" (st1 1) T B d [t; b; 0] m Hl); [reflexivity | simpl; tauto | exact Vd | exact Rd].
  - rewrite (C50_cleared nat 0 ex_skip hubs lay ex_skip_wf L l "outputs" "default" (st1 1) T B a [t; b; 0] m Hl); [reflexivity | simpl; tauto | exact Va | exact Ra].
Qed.
