(** C16 in the memory of a network: what get_context and apply_context do to the buffers of
    the layers. *)
From Coq Require Import String List Arith Bool Lia Permutation.
From Verif Require Import PyBase PyFacts UtilsModel UtilsProofs HubModel HubProofs LayoutModel LayoutProofs LayoutProps BuffersModel BuffersProofs BuffersProps BackwardProps.
Import ListNotations.
Open Scope string_scope.
Open Scope list_scope.
Open Scope nat_scope.

Section Carry.
Variable V : Type.
Variable zero : V.
Variables (hubs : list hub) (T1 T2 B k : nat) (h : hub).
Hypothesis Hk : nth_error hubs k = Some h.
Hypothesis Hb : h_btype h = 2.
Lemma combine_map {X Y} (f : X -> Y) l : combine (map f l) l = map (fun e => (f e, e)) l.
Proof. induction l; simpl; congruence. Qed.
Lemma carry_spec m1 m2 t b f : t < h_ctx h -> b < B -> f < h_size h -> h_ctx h <= T1 ->
  apply_context V zero hubs T2 B (get_context V hubs T1 B m1) m2 (hub_base hubs T2 B k + ((T2 + t) * B + b) * h_size h + f) =
  m1 (hub_base hubs T1 B k + ((T1 - h_ctx h + t) * B + b) * h_size h + f).
Proof.
  intros Ht Hbb Hf Hc. unfold apply_context, get_context. rewrite combine_map.
  set (A := hub_base hubs T2 B k + ((T2 + t) * B + b) * h_size h + f).
  assert (Hr : (T2 + t) * B + b < hub_rows h T2 B) by (unfold hub_rows; rewrite Hb; nia).
  rewrite (fold_cells V (apply_hub V zero hubs T2 B) (fun e => fst (snd e) =? k) (fun _ => m1 (hub_base hubs T1 B k + ((T1 - h_ctx h + t) * B + b) * h_size h + f))).
  - replace (existsb _ _) with true; [reflexivity|]. symmetry. apply existsb_exists.
    eexists. split; [apply in_map, (enum_spec hubs), Hk | cbn; apply Nat.eqb_refl].
  - intros m' e Hin Hne. apply in_map_iff in Hin as [[k' h'] [<- Hin]]. apply (enum_spec hubs) in Hin. cbn in Hne. apply Nat.eqb_neq in Hne.
    destruct (has_context h') eqn:Hc'; [|reflexivity]. cbn [apply_hub]. apply write_block_out. unfold read_block. rewrite map_length, seq_length. intros R. apply Hne.
    apply (cell_in_hub hubs T2 B k h _ f Hk Hr Hf k' h' Hin). fold A. rewrite hub_cells_rows, (has_context_rows T2 B h' Hc'). unfold row_cell, row_size in R.
    replace ((T2 + h_ctx h') * B * h_size h') with (T2 * (B * h_size h') + h_ctx h' * (B * h_size h')) by ring. clearbody A. lia.
  - intros m' e Hin He. apply in_map_iff in Hin as [[k' h'] [<- Hin]]. apply (enum_spec hubs) in Hin. cbn in He. apply Nat.eqb_eq in He. subst k'. rewrite Hk in Hin. injection Hin as <-.
    assert (Hh : has_context h = true) by (unfold has_context; rewrite Hb; cbn; destruct (Nat.eqb_spec (h_ctx h) 0); [lia | reflexivity]). rewrite Hh. cbn [apply_hub].
    assert (R : row_cell hubs T2 B k T2 h <= A < row_cell hubs T2 B k T2 h + h_ctx h * row_size B h).
    { assert (Q : t * B + b + 1 <= h_ctx h * B) by nia. apply (Nat.mul_le_mono_r _ _ (h_size h)) in Q. unfold A, row_cell, row_size.
      replace (((T2 + t) * B + b) * h_size h) with (T2 * (B * h_size h) + (t * B + b) * h_size h) by ring. replace (h_ctx h * (B * h_size h)) with (h_ctx h * B * h_size h) by ring. lia. }
    rewrite write_block_in; [|unfold read_block; rewrite map_length, seq_length; exact R]. unfold read_block.
    set (d := A - row_cell hubs T2 B k T2 h). assert (Hd : d < h_ctx h * row_size B h) by lia.
    rewrite (nth_indep _ zero (m1 0)) by (rewrite map_length, seq_length; exact Hd). rewrite (map_nth m1), seq_nth by exact Hd. f_equal. unfold d, A, row_cell, row_size.
    replace (((T2 + t) * B + b) * h_size h) with (T2 * (B * h_size h) + (t * B + b) * h_size h) by ring. replace (((T1 - h_ctx h + t) * B + b) * h_size h) with ((T1 - h_ctx h) * (B * h_size h) + (t * B + b) * h_size h) by ring. lia.
  - reflexivity.
Qed.
End Carry.

Lemma lead_row2 h B t b : h_btype h = 2 -> lead_row h B [t; b] = t * B + b.
Proof. intros H. unfold lead_row. rewrite H. reflexivity. Qed.

(** C16: the context given to a forward pass is, in every buffer of a layer with context, the
    last time steps of the pass after which get_context was called, for any lengths of
    the two sequences; the steps themselves are left as they are. *)
Theorem C16_context_rows : forall (V : Type) (zero : V) layers hubs lay,
  wf_layers layers -> create_layout layers = LOk (hubs, lay) ->
  forall l c x st k sl h T1 T2 B a1 a2 (m1 m2 : memory V),
  In l layers -> In x (map fst (arrays_of l c)) -> dget (path3 (l_name l) c x) (stub layers) = Some st -> ls_btype st = 2 ->
  dget (path3 (l_name l) c x) lay = Some (k, sl) -> nth_error hubs k = Some h -> h_ctx h = ls_ctx st -> ls_ctx st <= T1 ->
  array_view layers hubs lay T1 B (path3 (l_name l) c x) = Some a1 -> array_view layers hubs lay T2 B (path3 (l_name l) c x) = Some a2 ->
  let m := apply_context V zero hubs T2 B (get_context V hubs T1 B m1) m2 in
  (forall t b f, t < ls_ctx st -> in_range a2 (T2 + t :: b :: f) -> m (address a2 (T2 + t :: b :: f)) = m1 (address a1 (T1 - ls_ctx st + t :: b :: f))) /\
  (forall t b f, t < T2 -> in_range a2 (t :: b :: f) -> m (address a2 (t :: b :: f)) = m2 (address a2 (t :: b :: f))).
Proof.
  intros V zero layers hubs lay W L l c x st k sl h T1 T2 B a1 a2 m1 m2 Hl Hx Hst Hb Dk Hk Ec Hc V1 V2 m.
  destruct (arrays_cat l c x Hx) as [Ho [d [Hd Hxd]]].
  destruct (owned_source layers W hubs lay L l c d x Hl Hd Hxd Ho) as [k' [h' [i [st' [D [Hk' [Hi [Hst' [Hoff [Hsz [Hb' Hc']]]]]]]]]]].
  rewrite Dk in D. injection D as <- ->. rewrite Hk in Hk'. injection Hk' as <-. rewrite Hst in Hst'. injection Hst' as <-.
  unfold array_view in V1, V2. rewrite Dk, Hk in V1, V2. unfold struct_at in V1, V2. rewrite (not_root layers W l c d x Hl Hd Hxd), Hst in V1, V2. cbn [fst snd] in V1, V2.
  destruct (view_spec _ _ _ _ _ _ _ _ _ Hb' Hc' V1) as [E1 [Sh1 A1]]. destruct (view_spec _ _ _ _ _ _ _ _ _ Hb' Hc' V2) as [E2 [Sh2 A2]].
  assert (HhB : h_btype h = 2) by congruence.
  assert (LS : forall T, lead_shape st T B = [T + ls_ctx st; B]) by (intros T; unfold lead_shape; rewrite Hb; reflexivity).
  assert (Dec : forall t b f, in_range a2 (t :: b :: f) -> t < T2 + ls_ctx st /\ b < B /\ offset (h_sizes h) i + ravel (ls_feat st) f < h_size h).
  { intros t b f R. unfold in_range in R. rewrite Sh2, LS in R. inversion R as [|? ? ? ? Ht R1]; subst. inversion R1 as [|? ? ? ? Hbb R2]; subst.
    assert (Lf := ravel_lt _ _ R2). unfold ls_size in *. fold (prod (ls_feat st)) in *. repeat split; try assumption. lia. }
  split.
  - intros t b f Ht R. destruct (Dec _ _ _ R) as [_ [Hbb Hf]]. specialize (A2 [T2 + t; b] f). specialize (A1 [T1 - ls_ctx st + t; b] f). cbn [app] in A1, A2.
    rewrite A1, A2 by (rewrite LS; reflexivity). rewrite !lead_row2 by assumption. unfold m. rewrite (carry_spec V zero hubs T1 T2 B k h Hk HhB m1 m2 t b); [|lia|assumption|assumption|lia]. now rewrite Ec.
  - intros t b f Ht R. destruct (Dec _ _ _ R) as [_ [Hbb Hf]]. specialize (A2 [t; b] f). cbn [app] in A2. rewrite A2 by (rewrite LS; reflexivity). rewrite lead_row2 by assumption. unfold m.
    apply (apply_context_spec V zero hubs T2 B k h _ _ Hk).
    + unfold hub_rows. rewrite HhB. nia.
    + assumption.
    + intros cc k' h' Hin. unfold get_context in Hin. rewrite combine_map in Hin. apply in_map_iff in Hin as [[k0 h0] [E _]]. injection E as E -> ->.
      destruct (has_context h') eqn:Hh; [|discriminate]. injection E as <-. unfold read_block. rewrite map_length, seq_length. split; [reflexivity|].
      unfold has_context in Hh. apply andb_true_iff in Hh as [Hh _]. now apply Nat.eqb_eq.
    + intros _. nia.
Qed.
Print Assumptions C16_context_rows.

(** The recurrent layer "R" of the small network of C17, a sequence of 3 steps carried on for
    2 steps with a batch of 4 *)
Example C16_context_case : forall hubs lay a1 a2 (m1 m2 : memory nat),
  create_layout ex_skip = LOk (hubs, lay) ->
  array_view ex_skip hubs lay 3 4 "R.outputs.default" = Some a1 -> array_view ex_skip hubs lay 2 4 "R.outputs.default" = Some a2 ->
  apply_context nat 0 hubs 2 4 (get_context nat hubs 3 4 m1) m2 (address a2 [2; 3; 0]) = m1 (address a1 [2; 3; 0]).
Proof.
  intros hubs lay a1 a2 m1 m2 L V1 V2. set (l := nth 1 ex_skip (mkLayer "" [] [] [] [] [])).
  assert (Hl : In l ex_skip) by (simpl; tauto).
  destruct (dget "R.outputs.default" lay) as [[k sl]|] eqn:D; [|exfalso; revert V2; unfold array_view; rewrite D; discriminate].
  destruct (nth_error hubs k) as [h|] eqn:Hk; [|exfalso; revert V2; unfold array_view; rewrite D, Hk; discriminate].
  assert (Hc : h_ctx h = 1).
  { assert (X : match create_layout ex_skip with LOk (hu, la) => match dget "R.outputs.default" la with Some (k, _) => match nth_error hu k with Some h => h_ctx h | None => 0 end | None => 0 end | LErr _ => 0 end = 1) by (vm_compute; reflexivity).
    rewrite L, D, Hk in X. exact X. }
  destruct (C16_context_rows nat 0 ex_skip hubs lay ex_skip_wf L l "outputs" "default" (st1 1) k sl h 3 2 4 a1 a2 m1 m2 Hl) as [A _]; try assumption; try reflexivity.
  - simpl. tauto.
  - cbn. lia.
  - apply (A 0 3 [0]); [cbn; lia|]. unfold in_range. replace (a_shape a2) with [3; 4; 1]; [repeat constructor; lia|].
    assert (X : match create_layout ex_skip with LOk (hu, la) => match array_view ex_skip hu la 2 4 "R.outputs.default" with Some a => a_shape a | None => [] end | LErr _ => [] end = [3; 4; 1]) by (vm_compute; reflexivity).
    rewrite L, V2 in X. now rewrite X.
Qed.
