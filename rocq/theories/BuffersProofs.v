(** Proofs about memory addresses, resizing and contexts (C13-C15, C17). *)
From Coq Require Import String List Arith Bool Lia Permutation Relations.
From Verif Require Import PyBase PyFacts UtilsModel UtilsProofs HubModel HubProofs LayoutModel LayoutProofs LayoutProps BuffersModel.
Import ListNotations.
Open Scope string_scope.
Open Scope list_scope.
Open Scope nat_scope.

(** ** Row-major order *)
Definition ravel (feat fidx : list nat) : nat := dot_strides (c_dims feat) fidx.

Lemma ravel_lt feat fidx : Forall2 lt fidx feat -> ravel feat fidx < prod feat.
Proof.
  unfold ravel. induction 1 as [|i n is ns Hi _ IH]; simpl; [lia|].
  fold (prod ns). assert (i * prod ns + prod ns <= n * prod ns) by nia. lia.
Qed.
Lemma ravel_inj feat fidx fidx' : Forall2 lt fidx feat -> Forall2 lt fidx' feat ->
  ravel feat fidx = ravel feat fidx' -> fidx = fidx'.
Proof.
  intros H. revert fidx'. induction H as [|i n is ns Hi Hs IH]; intros fidx' H' E; inversion H' as [|j m js ms Hj Hjs]; subst; [reflexivity|].
  unfold ravel in *. cbn [c_dims dot_strides snd] in E.
  assert (A := ravel_lt _ _ Hs). assert (B := ravel_lt _ _ Hjs). unfold ravel in A, B.
  assert (i = j) by nia. subst j. f_equal. apply IH; [assumption | lia].
Qed.
(** All indices of a shape in row-major order. *)
Fixpoint all_indices (shape : list nat) : list (list nat) :=
  match shape with
  | [] => [[]]
  | n :: r => flat_map (fun i => map (cons i) (all_indices r)) (seq 0 n)
  end.
Lemma all_indices_spec shape idx : In idx (all_indices shape) <-> Forall2 lt idx shape.
Proof.
  revert idx. induction shape as [|n r IH]; intros idx; simpl.
  - split; [intros [<-|[]]; constructor | intros H; inversion H; now left].
  - rewrite in_flat_map. split.
    + intros [i [Hi H]]. apply in_seq in Hi. apply in_map_iff in H. destruct H as [x [<- Hx]]. constructor; [lia | now apply IH].
    + intros H. inversion H as [|i m is ms Hi Hs]; subst. exists i. split; [apply in_seq; lia|]. apply in_map. now apply IH.
Qed.
Lemma seq_blocks n k a : flat_map (fun i => seq (a + i * k) k) (seq 0 n) = seq a (n * k).
Proof.
  revert a. induction n as [|n IH]; intros a; [reflexivity|]. rewrite seq_S, flat_map_app, IH. cbn [flat_map].
  rewrite app_nil_r. simpl (0 + n). replace (S n * k) with (n * k + k) by lia. now rewrite seq_app.
Qed.
Lemma ravel_all shape a : map (fun idx => a + ravel shape idx) (all_indices shape) = seq a (prod shape).
Proof.
  revert a. induction shape as [|n r IH]; intros a; [cbn; unfold ravel; cbn; f_equal; lia|].
  cbn [all_indices]. rewrite map_flat_map. cbn [prod fold_right]. fold (prod r). rewrite <- (seq_blocks n (prod r) a).
  apply flat_map_ext. intros i. rewrite map_map. unfold ravel. cbn [c_dims dot_strides snd].
  rewrite <- IH. apply map_ext. intros x. unfold ravel. lia.
Qed.

(** ** Addresses of a view *)
(** The rows of a hub: all indices but the feature index. *)
Definition hub_rows (h : hub) (T B : nat) : nat :=
  match h_btype h with 0 => 1 | 1 => B | _ => (T + h_ctx h) * B end.
Lemma hub_cells_rows T B h : hub_cells T B h = hub_rows h T B * h_size h.
Proof.
  unfold hub_cells, hub_shape, hub_rows, prod. destruct (h_btype h) as [|[|n]]; simpl; try lia.
Qed.

(** Index in the leading axes -> row. *)
Definition lead_row (h : hub) (B : nat) (lead : list nat) : nat :=
  match h_btype h, lead with
  | 0, _ => 0
  | 1, [b] => b
  | _, [t; b] => t * B + b
  | _, _ => 0
  end.
Definition lead_shape (st : lstruct) (T B : nat) : list nat :=
  match ls_btype st with 0 => [] | 1 => [B] | _ => [T + ls_ctx st; B] end.

Lemma dot_scale dims idx : dot_strides (map (fun d : nat * nat => (fst d, snd d * 1)) dims) idx = dot_strides dims idx.
Proof. revert idx. induction dims as [|d r IH]; intros [|i is]; simpl; auto. rewrite IH. lia. Qed.
Lemma shape_scale dims : map fst (map (fun d : nat * nat => (fst d, snd d * 1)) dims) = map fst dims.
Proof. rewrite map_map. now apply map_ext. Qed.
Lemma c_dims_shape feat : map fst (c_dims feat) = feat.
Proof. induction feat as [|n r IH]; simpl; congruence. Qed.

Lemma view_spec hubs T B k h st lo hi a :
  ls_btype st = h_btype h -> ls_ctx st <= h_ctx h ->
  create_from_buffer_hub st (hub_buffer hubs T B k h) T h lo hi = Some a ->
  hi - lo = ls_size st /\
  a_shape a = lead_shape st T B ++ ls_feat st /\
  forall lead fidx, length lead = length (lead_shape st T B) ->
    address a (lead ++ fidx) = hub_base hubs T B k + lead_row h B lead * h_size h + (lo + ravel (ls_feat st) fidx).
Proof.
  intros Eb Hc. unfold create_from_buffer_hub. destruct (hi - lo =? ls_size st) eqn:E; [|discriminate].
  apply Nat.eqb_eq in E. intros [= <-]. split; [assumption|].
  unfold lead_shape, lead_row. rewrite <- Eb. unfold hub_buffer, hub_shape, c_array. rewrite <- Eb.
  destruct (ls_btype st) as [|[|n]]; unfold slice, split_last, a_shape, address;
    cbn [a_off a_dims slice_dims nth last removelast app skipn Nat.sub c_dims prod fold_right snd fst map].
  - split; [rewrite shape_scale; apply c_dims_shape|].
    intros lead fidx Hl. destruct lead; [|discriminate]. rewrite app_nil_l, dot_scale. unfold ravel. lia.
  - split; [rewrite shape_scale, c_dims_shape; reflexivity|].
    intros lead fidx Hl. destruct lead as [|b [|]]; try discriminate. cbn [app dot_strides snd]. rewrite dot_scale. unfold ravel. lia.
  - split; [rewrite shape_scale, c_dims_shape; cbn [app]; f_equal; try lia|].
    intros lead fidx Hl. destruct lead as [|t [|b [|]]]; try discriminate. cbn [app dot_strides snd]. rewrite dot_scale. unfold ravel. nia.
Qed.

Lemma lead_row_lt h st T B lead : ls_btype st = h_btype h -> ls_ctx st <= h_ctx h ->
  Forall2 lt lead (lead_shape st T B) -> lead_row h B lead < hub_rows h T B.
Proof.
  intros Eb Hc. unfold lead_shape, lead_row, hub_rows. rewrite <- Eb. destruct (ls_btype st) as [|[|n]]; intros H.
  - lia.
  - inversion H as [|b ? ? ? Hb H1]; subst. inversion H1; subst. assumption.
  - inversion H as [|t ? ? ? Ht H1]; subst. inversion H1 as [|b ? ? ? Hb H2]; subst. inversion H2; subst. nia.
Qed.
Lemma lead_row_inj h st T B lead lead' : ls_btype st = h_btype h ->
  Forall2 lt lead (lead_shape st T B) -> Forall2 lt lead' (lead_shape st T B) ->
  lead_row h B lead = lead_row h B lead' -> lead = lead'.
Proof.
  intros Eb. unfold lead_shape, lead_row. rewrite <- Eb. destruct (ls_btype st) as [|[|n]]; intros H H'.
  - inversion H; inversion H'; subst; reflexivity.
  - inversion H as [|b ? ? ? Hb H1]; subst. inversion H1; subst. inversion H' as [|b' ? ? ? Hb' H1']; subst. inversion H1'; subst. congruence.
  - inversion H as [|t ? ? ? Ht H1]; subst. inversion H1 as [|b ? ? ? Hb H2]; subst. inversion H2; subst.
    inversion H' as [|t' ? ? ? Ht' H1']; subst. inversion H1' as [|b' ? ? ? Hb' H2']; subst. inversion H2'; subst.
    intros E. assert (t = t') by nia. subst. f_equal. f_equal. lia.
Qed.

Lemma row_unique s r r' f f' : r * s + f = r' * s + f' -> f < s -> f' < s -> r = r' /\ f = f'.
Proof.
  intros E H H'. destruct (lt_eq_lt_dec r r') as [[C|C]|C].
  - exfalso. assert ((r + 1) * s <= r' * s) by (apply Nat.mul_le_mono_r; lia). lia.
  - subst. lia.
  - exfalso. assert ((r' + 1) * s <= r * s) by (apply Nat.mul_le_mono_r; lia). lia.
Qed.
Lemma Forall2_len {A B} (R : A -> B -> Prop) l l' : Forall2 R l l' -> length l = length l'.
Proof. induction 1; simpl; congruence. Qed.
Lemma NoDup_app_l {A} (l l' : list A) : NoDup (l ++ l') -> NoDup l.
Proof. induction l as [|x r IH]; intros H; [constructor|]. simpl in H. inversion H as [|? ? N N']; subst. constructor; [|auto]. intros X. apply N, in_or_app. now left. Qed.
Lemma NoDup_app_r {A} (l l' : list A) : NoDup (l ++ l') -> NoDup l'.
Proof. induction l as [|x r IH]; intros H; [assumption|]. simpl in H. inversion H; auto. Qed.
Lemma nth_error_firstn' {A} (l : list A) n i : i < n -> nth_error (firstn n l) i = nth_error l i.
Proof. revert n i. induction l as [|x r IH]; intros [|n] [|i] H; simpl; try lia; try reflexivity. apply IH. lia. Qed.
Lemma nth_error_skipn' {A} (l : list A) n i : nth_error (skipn n l) i = nth_error l (n + i).
Proof. revert l. induction n as [|n IH]; intros [|x r]; simpl; auto. now destruct i. Qed.
Lemma in_range_split a shape1 feat idx : a_shape a = shape1 ++ feat -> in_range a idx ->
  exists lead fidx, idx = lead ++ fidx /\ Forall2 lt lead shape1 /\ Forall2 lt fidx feat /\ length lead = length shape1.
Proof.
  unfold in_range. intros E H. rewrite E in H. apply Forall2_app_inv_r in H. destruct H as [l1 [l2 [H1 [H2 ->]]]].
  exists l1, l2. split; [reflexivity|]. split; [assumption|]. split; [assumption|]. eapply Forall2_len; eassumption.
Qed.

(** ** The arrays of a layout *)
Definition owned (c : string) : Prop := In c ["outputs"; "parameters"; "internals"; "output_deltas"; "gradients"].

Section Layout.
  Variable layers : list layer.
  Hypothesis W : wf_layers layers.
  Variable hubs : list hub.
  Variable lay : slices.
  Hypothesis L : create_layout layers = LOk (hubs, lay).

  (** The arrays that own their memory: everything that is not the end of a
      connection. *)
  Lemma owned_source l c d x : In l layers -> In (c, d) (cat_entries l) -> In x (map fst d) -> owned c ->
    exists k h i st,
      dget (path3 (l_name l) c x) lay = Some (k, (offset (h_sizes h) i, offset (h_sizes h) (S i))) /\
      nth_error hubs k = Some h /\ nth_error (h_sources h) i = Some (path3 (l_name l) c x) /\
      dget (path3 (l_name l) c x) (stub layers) = Some st /\
      offset (h_sizes h) (S i) = offset (h_sizes h) i + ls_size st /\
      offset (h_sizes h) (S i) <= h_size h /\
      ls_btype st = h_btype h /\ ls_ctx st <= h_ctx h.
  Proof.
    intros Hl Hd Hx Ho. destruct (create_layout_parts _ _ _ L) as [fos [cns [hubs0 [Hf [Hc [Hh [-> ->]]]]]]].
    set (p := path3 (l_name l) c x).
    assert (Sp : In p (map fst (stub layers))) by (apply stub_names; exists l, c, d, x; auto).
    assert (Np : ~ is_sink cns p).
    { intros [s Hs]. destruct (entry_comp layers W l c d x Hl Hd Hx) as [C1 [C2 C3]].
      assert (Snk : forall t, fwd_sink layers t -> p <> t /\ p <> mirror t).
      { intros t [->|[l' [y [Hl' [Hy ->]]]]].
        - rewrite mirror_root. split; unfold p; now apply path3_not_root.
        - assert (Cy : component y) by (apply (names_comp (l_in l')); [now apply W | assumption]).
          assert (Cl' : component (l_name l')) by now apply W.
          assert (E : mirror (path3 (l_name l') "inputs" y) = path3 (l_name l') "input_deltas" y).
          { unfold mirror. rewrite split2_path3 by (assumption || cat). reflexivity. }
          rewrite E. unfold p. split; intros E'; apply path3_inj in E'; try assumption; try cat; destruct E' as [_ [E' _]]; subst c;
            destruct Ho as [H|[H|[H|[H|[H|[]]]]]]; discriminate. }
      destruct (In_cns layers W cns Hc s p Hs) as [G|[s' [t' [G [_ E]]]]].
      - apply (fcon_fwd layers W) in G. destruct G as [_ G]. now apply Snk in G.
      - apply (fcon_fwd layers W) in G. destruct G as [_ G]. now apply Snk in G. }
    assert (Hn : In (merge_node fos p) (get_all_sources fos cns (map fst (stub layers)))).
    { apply (all_sources_spec layers W fos Hf cns). exists p. auto. }
    destruct (hub_of_source layers fos cns hubs0 Hh _ Hn) as [h [src [snk [[Hh0 [Hcr _]] [Hs C]]]]].
    assert (Hsrc : In p (h_sources h)).
    { apply (Permutation_in _ (Permutation_sym (class_sources layers cns h src snk Hcr))). apply in_flat_map.
      exists (merge_node fos p). split; [assumption|]. apply merge_flat. }
    assert (Hh' := proj2 (lhubs_In hubs0 h) Hh0). apply In_nth_error in Hh'. destruct Hh' as [k Hk].
    destruct (source_entry layers W fos Hf cns Hc hubs0 Hh k h p Hk Hsrc) as [i [st [Hi [Hst [Hoff D]]]]].
    assert (Ok := hub_create_spec _ _ _ _ _ Hcr).
    exists k, h, i, st. split; [now apply default_other, default_other|]. split; [assumption|]. split; [assumption|].
    split; [assumption|]. split; [assumption|]. split.
    - rewrite <- (hub_size_offset _ _ _ _ _ Ok). apply offset_mono.
      assert (i < length (h_sources h)) by (apply nth_error_Some; congruence). lia.
    - destruct Ok as [_ [_ [_ [S _]]]]. destruct (S i p Hi) as [st' [H1 [_ [H2 [H3 _]]]]].
      rewrite Hst in H1. injection H1 as <-. auto.
  Qed.

  Lemma sizes_NoDup k h : nth_error hubs k = Some h -> NoDup (h_sources h).
  Proof.
    intros Hk. destruct (create_layout_parts _ _ _ L) as [fos [cns [hubs0 [Hf [Hc [Hh [-> ->]]]]]]].
    assert (N := names_NoDup layers W fos Hf cns Hc hubs0 Hh).
    assert (Hin : In h hubs0) by (apply (lhubs_In hubs0); eapply nth_error_In; eauto).
    clear - N Hin. induction hubs0 as [|h' hs IH]; [destruct Hin|]. cbn [flat_map] in N. destruct Hin as [->|Hin].
    - rewrite index_names in N. apply NoDup_app_l in N. now apply NoDup_app_l in N.
    - apply IH; [|assumption]. clear - N. induction (map fst (get_indices h')) as [|a r IHr]; [assumption|]. simpl in N. inversion N; auto.
  Qed.

  Lemma not_root l c d x : In l layers -> In (c, d) (cat_entries l) -> In x (map fst d) ->
    smem (path3 (l_name l) c x) ["parameters"; "gradients"] = false.
  Proof.
    intros Hl Hd Hx. destruct (entry_comp layers W l c d x Hl Hd Hx) as [C1 [C2 C3]]. apply smem_false.
    intros [E|[E|[]]]; symmetry in E; revert E; now apply path3_not_root.
  Qed.

  (** Cells of an owned array. *)
  Lemma owned_address l c d x T B a idx : In l layers -> In (c, d) (cat_entries l) -> In x (map fst d) -> owned c ->
    array_view layers hubs lay T B (path3 (l_name l) c x) = Some a -> in_range a idx ->
    exists k h i st row f,
      nth_error hubs k = Some h /\ nth_error (h_sources h) i = Some (path3 (l_name l) c x) /\
      dget (path3 (l_name l) c x) (stub layers) = Some st /\
      offset (h_sizes h) i <= f < offset (h_sizes h) (S i) /\ f < h_size h /\ row < hub_rows h T B /\
      address a idx = hub_base hubs T B k + row * h_size h + f.
  Proof.
    intros Hl Hd Hx Ho V R. destruct (owned_source l c d x Hl Hd Hx Ho) as [k [h [i [st [D [Hk [Hi [Hst [Hoff [Hsz [Hb Hc]]]]]]]]]]].
    unfold array_view in V. rewrite D, Hk in V. unfold struct_at in V. rewrite (not_root l c d x Hl Hd Hx), Hst in V.
    cbn [fst snd] in V. destruct (view_spec _ _ _ _ _ _ _ _ _ Hb Hc V) as [E [Sh A]].
    destruct (in_range_split a _ _ idx Sh R) as [lead [fidx [-> [R1 [R2 Hlen]]]]].
    assert (Lf := ravel_lt _ _ R2). assert (Lr := lead_row_lt h st T B lead Hb Hc R1).
    exists k, h, i, st, (lead_row h B lead), (offset (h_sizes h) i + ravel (ls_feat st) fidx).
    unfold ls_size in *. fold (prod (ls_feat st)) in *. rewrite (A lead fidx Hlen).
    repeat split; try assumption; lia.
  Qed.

  Lemma hub_range k h T B row f : nth_error hubs k = Some h -> row < hub_rows h T B -> f < h_size h ->
    hub_base hubs T B k <= hub_base hubs T B k + row * h_size h + f < hub_base hubs T B (S k).
  Proof.
    intros Hk Hr Hf. unfold hub_base. rewrite offset_S. rewrite (nth_error_nth (map (hub_cells T B) hubs) k 0 (x := hub_cells T B h)).
    - rewrite hub_cells_rows. split; [lia|]. assert (row * h_size h + h_size h <= hub_rows h T B * h_size h) by nia. lia.
    - rewrite nth_error_map, Hk. reflexivity.
  Qed.
  Lemma base_total T B k : hub_base hubs T B k <= total_size hubs T B.
  Proof.
    unfold hub_base, total_size. set (l := map (hub_cells T B) hubs). clearbody l. unfold offset, sum. revert k.
    induction l as [|n r IH]; intros [|k]; simpl; try lia. specialize (IH k). lia.
  Qed.

  Lemma owned_in_memory l c d x T B a idx : In l layers -> In (c, d) (cat_entries l) -> In x (map fst d) -> owned c ->
    array_view layers hubs lay T B (path3 (l_name l) c x) = Some a -> in_range a idx ->
    address a idx < total_size hubs T B.
  Proof.
    intros Hl Hd Hx Ho V R. destruct (owned_address l c d x T B a idx Hl Hd Hx Ho V R) as [k [h [i [st [row [f [Hk [_ [_ [_ [Hf [Hr ->]]]]]]]]]]]].
    assert (A := hub_range k h T B row f Hk Hr Hf). assert (B' := base_total T B (S k)). lia.
  Qed.

  Lemma owned_disjoint l c d x l' c' d' x' T B a a' idx idx' :
    In l layers -> In (c, d) (cat_entries l) -> In x (map fst d) -> owned c ->
    In l' layers -> In (c', d') (cat_entries l') -> In x' (map fst d') -> owned c' ->
    array_view layers hubs lay T B (path3 (l_name l) c x) = Some a ->
    array_view layers hubs lay T B (path3 (l_name l') c' x') = Some a' ->
    in_range a idx -> in_range a' idx' -> address a idx = address a' idx' ->
    l_name l = l_name l' /\ c = c' /\ x = x'.
  Proof.
    intros Hl Hd Hx Ho Hl' Hd' Hx' Ho' V V' R R' E.
    destruct (owned_address l c d x T B a idx Hl Hd Hx Ho V R) as [k [h [i [st [row [f [Hk [Hi [_ [Of [Hf [Hr E1]]]]]]]]]]]].
    destruct (owned_address l' c' d' x' T B a' idx' Hl' Hd' Hx' Ho' V' R') as [k' [h' [i' [st' [row' [f' [Hk' [Hi' [_ [Of' [Hf' [Hr' E2]]]]]]]]]]]].
    assert (A := hub_range k h T B row f Hk Hr Hf). assert (A' := hub_range k' h' T B row' f' Hk' Hr' Hf').
    assert (k = k').
    { unfold hub_base in *. apply (offset_unique (map (hub_cells T B) hubs) k k' (address a idx)); lia. }
    subst k'. rewrite Hk in Hk'. injection Hk' as <-.
    assert (f = f') by (apply (row_unique (h_size h) row row'); lia). subst f'.
    assert (i = i') by (apply (offset_unique (h_sizes h) i i' f); lia). subst i'.
    rewrite Hi in Hi'. injection Hi' as Ep.
    destruct (entry_comp layers W l c d x Hl Hd Hx) as [C1 [C2 C3]].
    destruct (entry_comp layers W l' c' d' x' Hl' Hd' Hx') as [C1' [C2' C3']].
    now apply path3_inj in Ep.
  Qed.

  Lemma owned_faithful l c d x T B a idx idx' : In l layers -> In (c, d) (cat_entries l) -> In x (map fst d) -> owned c ->
    array_view layers hubs lay T B (path3 (l_name l) c x) = Some a -> in_range a idx -> in_range a idx' ->
    address a idx = address a idx' -> idx = idx'.
  Proof.
    intros Hl Hd Hx Ho V R R' E. destruct (owned_source l c d x Hl Hd Hx Ho) as [k [h [i [st [D [Hk [Hi [Hst [Hoff [Hsz [Hb Hc]]]]]]]]]]].
    unfold array_view in V. rewrite D, Hk in V. unfold struct_at in V. rewrite (not_root l c d x Hl Hd Hx), Hst in V.
    cbn [fst snd] in V. destruct (view_spec _ _ _ _ _ _ _ _ _ Hb Hc V) as [Es [Sh A]].
    destruct (in_range_split a _ _ idx Sh R) as [lead [fidx [-> [R1 [R2 Hlen]]]]].
    destruct (in_range_split a _ _ idx' Sh R') as [lead' [fidx' [-> [R1' [R2' Hlen']]]]].
    rewrite (A lead fidx Hlen), (A lead' fidx' Hlen') in E.
    assert (Lf := ravel_lt _ _ R2). assert (Lf' := ravel_lt _ _ R2').
    unfold ls_size in Hoff. fold (prod (ls_feat st)) in Hoff.
    assert (lead_row h B lead = lead_row h B lead').
    { eapply (row_unique (h_size h) _ _ (offset (h_sizes h) i + ravel (ls_feat st) fidx) (offset (h_sizes h) i + ravel (ls_feat st) fidx')); lia. }
    f_equal; [eapply lead_row_inj; eauto|]. apply (ravel_inj (ls_feat st)); try assumption. lia.
  Qed.

  (** The views of owned arrays exist. *)
  Lemma owned_view l c d x T B : In l layers -> In (c, d) (cat_entries l) -> In x (map fst d) -> owned c ->
    exists a st, array_view layers hubs lay T B (path3 (l_name l) c x) = Some a /\
      dget (path3 (l_name l) c x) (stub layers) = Some st /\ a_shape a = lead_shape st T B ++ ls_feat st.
  Proof.
    intros Hl Hd Hx Ho. destruct (owned_source l c d x Hl Hd Hx Ho) as [k [h [i [st [D [Hk [Hi [Hst [Hoff [Hsz [Hb Hc]]]]]]]]]]].
    unfold array_view. rewrite D, Hk. unfold struct_at. rewrite (not_root l c d x Hl Hd Hx), Hst. cbn [fst snd].
    destruct (create_from_buffer_hub st (hub_buffer hubs T B k h) T h (offset (h_sizes h) i) (offset (h_sizes h) (S i))) as [a|] eqn:V.
    - exists a, st. split; [reflexivity|]. split; [reflexivity|]. now destruct (view_spec _ _ _ _ _ _ _ _ _ Hb Hc V) as [_ [Sh _]].
    - exfalso. unfold create_from_buffer_hub in V. replace (_ =? ls_size st) with true in V; [discriminate|]. symmetry. apply Nat.eqb_eq. lia.
  Qed.

  (** ** Inputs *)
  Definition connected (l' : layer) (x : string) (s : string) : Prop :=
    exists l c cat y, In l layers /\ In c (l_outgoing l) /\ out_ref (c_output c) (cat, y) /\
      c_end c = l_name l' /\ c_input c = x /\ s = path3 (l_name l) cat y.

  Lemma to_input cns l' x s : get_connections layers = LOk cns -> In l' layers -> In x (map fst (l_in l')) ->
    (In (s, path3 (l_name l') "inputs" x) cns <-> connected l' x s).
  Proof.
    intros Hc Hl' Hx.
    assert (Cx : component x) by (apply (names_comp (l_in l')); [now apply W | assumption]).
    assert (Cl' : component (l_name l')) by now apply W. split.
    - intros I. destruct (In_cns layers W cns Hc s _ I) as [G|[s' [t' [G [_ E]]]]].
      + remember (s, path3 (l_name l') "inputs" x) as q eqn:Eq. destruct G as [l c cat y Hl Hcc Ho|l y Hl Hy]; injection Eq as E1 E2.
        * exists l, c, cat, y. split; [assumption|]. split; [assumption|]. split; [assumption|].
          destruct (wf_conn _ W l c Hl Hcc) as [_ [_ [k [Hk [Ek Hi]]]]].
          assert (Ci : component (c_input c)) by (apply (names_comp (l_in k)); [now apply W | assumption]).
          assert (Ck : component (l_name k)) by now apply W.
          rewrite Ek in E2. apply path3_inj in E2; try assumption; try cat. destruct E2 as [E2 [_ E3]].
          split; [congruence|]. split; [assumption | now symmetry].
        * exfalso. symmetry in E2. revert E2. apply path3_not_root; try assumption; try cat. reflexivity.
      + exfalso. apply (fcon_fwd layers W) in G. destruct G as [_ G]. apply (mirror_sink_not_fwd layers W t' G).
        right. exists l', x. auto.
    - intros [l [c [cat [y [Hl [Hcc [Ho [E1 [E2 ->]]]]]]]]]. apply (fcon_In layers W cns Hc).
      rewrite <- E1, <- E2. now constructor.
  Qed.

  (** Addresses of the features of one row, in row-major order. *)
  Definition row_addresses (a : arr) (feat : list nat) (lead : list nat) : list nat :=
    map (fun f => address a (lead ++ f)) (all_indices feat).
  Definition source_row (T B : nat) (lead : list nat) (s : string) : list nat :=
    match array_view layers hubs lay T B s, dget s (stub layers) with
    | Some a, Some st => row_addresses a (ls_feat st) lead
    | _, _ => []
    end.

  Lemma segments base sizes (names : list string) (row : string -> list nat) a n :
    (forall i s, a <= i < a + n -> nth_error names i = Some s -> row s = seq (base + offset sizes i) (offset sizes (S i) - offset sizes i)) ->
    a + n <= length names ->
    flat_map row (firstn n (skipn a names)) = seq (base + offset sizes a) (offset sizes (a + n) - offset sizes a).
  Proof.
    clear. revert a. induction n as [|n IH]; intros a H Hl.
    - simpl. now rewrite Nat.add_0_r, Nat.sub_diag.
    - destruct (nth_error names a) as [s|] eqn:E; [|apply nth_error_None in E; lia].
      assert (Es : skipn a names = s :: skipn (S a) names).
      { clear - E. revert a E. induction names as [|y r IH]; intros [|a] E; simpl in *; try discriminate; [congruence|].
        now apply IH. }
      rewrite Es. cbn [firstn flat_map]. rewrite (H a s) by (lia || assumption).
      rewrite IH by ((intros; apply H; lia || assumption) || lia).
      assert (M1 : offset sizes a <= offset sizes (S a)) by (apply offset_mono; lia).
      assert (M2 : offset sizes (S a) <= offset sizes (S a + n)) by (apply offset_mono; lia).
      replace (a + S n) with (S a + n) by lia.
      replace (offset sizes (S a + n) - offset sizes a) with ((offset sizes (S a) - offset sizes a) + (offset sizes (S a + n) - offset sizes (S a))) by lia.
      rewrite seq_app. f_equal. f_equal. lia.
  Qed.

  (** Number of features of an array. *)
  Definition features (s : string) : nat := match dget s (stub layers) with Some st => ls_size st | None => 0 end.
  Lemma segments_sum sizes (names : list string) (f : string -> nat) a n :
    (forall i s, a <= i < a + n -> nth_error names i = Some s -> offset sizes (S i) = offset sizes i + f s) ->
    a + n <= length names ->
    offset sizes (a + n) = offset sizes a + sum (map f (firstn n (skipn a names))).
  Proof.
    clear. revert a. induction n as [|n IH]; intros a H Hl.
    - rewrite Nat.add_0_r. simpl. unfold sum. simpl. lia.
    - destruct (nth_error names a) as [s|] eqn:E; [|apply nth_error_None in E; lia].
      assert (Es : skipn a names = s :: skipn (S a) names).
      { clear - E. revert a E. induction names as [|y r IH]; intros [|a] E; simpl in *; try discriminate; [congruence|].
        now apply IH. }
      rewrite Es. cbn [firstn map]. replace (a + S n) with (S a + n) by lia.
      rewrite IH by ((intros; apply H; lia || assumption) || lia). rewrite (H a s) by (lia || assumption).
      unfold sum. cbn [fold_right]. lia.
  Qed.

  (** The end of a connection: an input or its deltas. *)
  Lemma sink_rows cns t sti s0 : get_connections layers = LOk cns -> In (s0, t) cns ->
    dget t (stub layers) = Some sti -> smem t ["parameters"; "gradients"] = false ->
    ls_ctx sti = 0 ->
    (forall s st, In (s, t) cns -> dget s (stub layers) = Some st -> ls_btype st = ls_btype sti) ->
    exists srcs, NoDup srcs /\ (forall s, In s srcs <-> In (s, t) cns) /\ forall T B,
      (forall s, In s srcs -> exists a' st, array_view layers hubs lay T B s = Some a' /\ dget s (stub layers) = Some st /\
         a_shape a' = lead_shape st T B ++ ls_feat st /\ ls_btype st = ls_btype sti) /\
      (ls_size sti = sum (map features srcs) -> exists a, array_view layers hubs lay T B t = Some a) /\
      forall a, array_view layers hubs lay T B t = Some a ->
        a_shape a = lead_shape sti T B ++ ls_feat sti /\
        forall lead, length lead = length (lead_shape sti T B) ->
          row_addresses a (ls_feat sti) lead = flat_map (source_row T B lead) srcs.
  Proof.
    intros Hc I0 St Nrt Hctx Hbt.
    assert (ND := sizes_NoDup).
    destruct (create_layout_parts _ _ _ L) as [fos [cns' [hubs0 [Hf [Hc' [Hh [Eh El]]]]]]].
    rewrite Hc in Hc'. injection Hc' as <-.
    destruct (sink_hub layers W fos Hf cns Hc hubs0 Hh _ _ I0) as [k [h [sl [Hk [Ht [D Hsrc]]]]]].
    assert (Hh0 : In h hubs0) by (apply (lhubs_In hubs0); eapply nth_error_In; eauto).
    destruct (hub_ok_of layers fos cns hubs0 Hh h Hh0) as [src [snk [Ok _]]].
    assert (Sub : forall p v, dget p (fill (layout_entries (lhubs hubs0)) []) = Some v -> dget p lay = Some v).
    { intros p v Hp. rewrite El. now apply default_other, default_other. }
    assert (Hkh : nth_error hubs k = Some h) by (rewrite Eh; exact Hk).
    assert (Ht' := Ht). apply In_nth_error in Ht'. destruct Ht' as [j Hj].
    assert (Hex : exists s, In s (h_sources h) /\ In (s, t) cns) by (exists s0; auto).
    destruct (sink_slice_block _ _ _ _ _ _ _ Ok Hj Hex) as [lo [hi [Hab [Esl Hb]]]].
    assert (Esl' : sl = sink_slice h j).
    { assert (X : dget t (fill (layout_entries (lhubs hubs0)) []) = Some (k, sink_slice h j)).
      { apply (layout_spec layers W fos Hf cns Hc hubs0 Hh). exists h. split; [assumption|]. unfold get_indices. apply in_or_app. right.
        unfold sink_indices. apply in_map_iff. exists j. rewrite (nth_error_nth _ _ _ Hj). split; [reflexivity|].
        apply in_seq. split; [lia|]. apply nth_error_Some. congruence. }
      congruence. }
    assert (Hs_st : forall s, In s (h_sources h) -> exists st, dget s (stub layers) = Some st /\ ls_btype st = h_btype h /\ ls_ctx st <= h_ctx h).
    { intros s Hs. apply In_nth_error in Hs. destruct Hs as [i Hi]. destruct Ok as [_ [_ [_ [S _]]]].
      destruct (S i s Hi) as [st [H1 [_ [H2 [H3 _]]]]]. eauto. }
    assert (Bt : ls_btype sti = h_btype h).
    { destruct (Hs_st s0 (Hsrc _ I0)) as [st [H1 [H2 _]]]. rewrite <- H2. symmetry. now apply (Hbt s0). }
    exists (firstn (hi - lo) (skipn lo (h_sources h))).
    assert (In_srcs : forall s, In s (firstn (hi - lo) (skipn lo (h_sources h))) <-> exists i, lo <= i < hi /\ nth_error (h_sources h) i = Some s).
    { intros s. clear. split.
      - intros H. apply In_nth_error in H. destruct H as [i Hi]. assert (Li : i < hi - lo).
        { assert (X : i < length (firstn (hi - lo) (skipn lo (h_sources h)))) by (apply nth_error_Some; congruence). rewrite firstn_length in X. lia. }
        exists (lo + i). split; [lia|]. rewrite nth_error_firstn' in Hi by assumption. now rewrite nth_error_skipn' in Hi.
      - intros [i [Hi E]]. apply nth_error_In with (i - lo). rewrite nth_error_firstn' by lia. rewrite nth_error_skipn'. now replace (lo + (i - lo)) with i by lia. }
    split.
    { assert (N := ND k h Hkh). clear - N. revert N. generalize (h_sources h) as l, (hi - lo) as n. intros l n N.
      rewrite <- (firstn_skipn lo l) in N. apply NoDup_app_r in N. rewrite <- (firstn_skipn n (skipn lo l)) in N. now apply NoDup_app_l in N. }
    split.
    { intros s. rewrite In_srcs. split.
      - intros [i [Hi E]]. now apply (Hb i s E).
      - intros I. destruct (In_nth_error _ _ (Hsrc s I)) as [i Hi]. exists i. split; [now apply (Hb i s Hi) | assumption]. }
    intros T B.
    (* views of the sources *)
    assert (Src : forall i s, nth_error (h_sources h) i = Some s -> exists a' st,
       array_view layers hubs lay T B s = Some a' /\ dget s (stub layers) = Some st /\ ls_btype st = ls_btype sti /\
       a_shape a' = lead_shape st T B ++ ls_feat st /\ offset (h_sizes h) (S i) = offset (h_sizes h) i + prod (ls_feat st) /\
       forall lead fidx, length lead = length (lead_shape st T B) ->
         address a' (lead ++ fidx) = hub_base hubs T B k + lead_row h B lead * h_size h + (offset (h_sizes h) i + ravel (ls_feat st) fidx)).
    { intros i s Hi. destruct (Hs_st s (nth_error_In _ _ Hi)) as [st [Hst [Hbs Hcs]]].
      destruct (source_slice_spec _ _ _ _ _ Ok i s Hi) as [H4 [st' [Hst' Hoff]]].
      rewrite Hst in Hst'. injection Hst' as <-.
      assert (Ds : dget s (fill (layout_entries (lhubs hubs0)) []) = Some (k, (offset (h_sizes h) i, offset (h_sizes h) (S i)))).
      { apply (layout_spec layers W fos Hf cns Hc hubs0 Hh). exists h. split; [assumption|]. unfold get_indices. apply in_or_app. left. eapply nth_error_In; eauto. }
      assert (Nr : smem s ["parameters"; "gradients"] = false).
      { assert (X : In s (map fst (stub layers))) by (now apply dget_Some_key in Hst). apply stub_names in X.
        destruct X as [l [c [d [y [Hl [Hd' [Hy ->]]]]]]]. now apply (not_root l c d y). }
      assert (V' : create_from_buffer_hub st (hub_buffer hubs T B k h) T h (offset (h_sizes h) i) (offset (h_sizes h) (S i)) <> None).
      { unfold create_from_buffer_hub. replace (_ =? ls_size st) with true; [discriminate|]. symmetry. apply Nat.eqb_eq. lia. }
      destruct (create_from_buffer_hub st (hub_buffer hubs T B k h) T h (offset (h_sizes h) i) (offset (h_sizes h) (S i))) as [a'|] eqn:V'';
        [clear V'|now destruct V'].
      destruct (view_spec _ _ _ _ _ _ _ _ _ Hbs Hcs V'') as [E1 [E2 E3]].
      exists a', st. split.
      - unfold array_view. rewrite (Sub _ _ Ds), Hkh. unfold struct_at. rewrite Nr, Hst. exact V''.
      - split; [assumption|]. split; [congruence|]. split; [assumption|]. split; [exact Hoff | assumption]. }
    split.
    { intros s Hs. apply In_srcs in Hs. destruct Hs as [i [_ Hi]]. destruct (Src i s Hi) as [a' [st [H1 [H2 [H3 [H4 _]]]]]].
      exists a', st. auto. }
    assert (Vt : array_view layers hubs lay T B t = create_from_buffer_hub sti (hub_buffer hubs T B k h) T h (offset (h_sizes h) lo) (offset (h_sizes h) hi)).
    { unfold array_view. rewrite (Sub _ _ D), Hkh. unfold struct_at. rewrite Nrt, St, Esl', Esl. reflexivity. }
    split.
    { intros Hsum. rewrite Vt. unfold create_from_buffer_hub.
      assert (X : offset (h_sizes h) (lo + (hi - lo)) = offset (h_sizes h) lo + sum (map features (firstn (hi - lo) (skipn lo (h_sources h))))).
      { apply segments_sum; [|lia]. intros i s Hi Hs. destruct (Src i s Hs) as [a' [st [_ [H2 [_ [_ [H5 _]]]]]]].
        unfold features. rewrite H2. exact H5. }
      replace (lo + (hi - lo)) with hi in X by lia.
      replace (_ =? ls_size sti) with true; [eexists; reflexivity|]. symmetry. apply Nat.eqb_eq. lia. }
    intros a V. rewrite Vt in V.
    destruct (view_spec _ _ _ _ _ _ _ _ _ Bt ltac:(lia) V) as [Esz [Sh A]]. split; [exact Sh|].
    intros lead Hlead. unfold row_addresses.
    rewrite (map_ext _ (fun f => (hub_base hubs T B k + lead_row h B lead * h_size h + offset (h_sizes h) lo) + ravel (ls_feat sti) f))
      by (intros f; rewrite (A lead f Hlead); lia).
    rewrite ravel_all. unfold ls_size in Esz. fold (prod (ls_feat sti)) in Esz. rewrite <- Esz.
    replace hi with (lo + (hi - lo)) at 1 by lia.
    symmetry. apply segments; [|lia].
    intros i s Hi Hs. unfold source_row. destruct (Src i s Hs) as [a' [st [H1 [H2 [H3 [H4 [H5 H6]]]]]]]. rewrite H1, H2.
    unfold row_addresses.
    assert (Hlead' : length lead = length (lead_shape st T B)).
    { rewrite Hlead. unfold lead_shape. rewrite H3. now destruct (ls_btype sti) as [|[|]]. }
    rewrite (map_ext _ (fun f => (hub_base hubs T B k + lead_row h B lead * h_size h + offset (h_sizes h) i) + ravel (ls_feat st) f))
      by (intros f; rewrite (H6 lead f Hlead'); lia).
    rewrite ravel_all. f_equal. lia.
  Qed.

  (** The slice of the end of a connection is made of those of its sources. *)
  Lemma sink_slices cns t s0 : get_connections layers = LOk cns -> In (s0, t) cns ->
    exists k h lo hi, dget t lay = Some (k, (lo, hi)) /\ nth_error hubs k = Some h /\ lo <= hi <= h_size h /\
      (forall s, In (s, t) cns -> exists lo' st, dget s lay = Some (k, (lo', lo' + ls_size st)) /\
         dget s (stub layers) = Some st /\ smem s ["parameters"; "gradients"] = false /\
         ls_btype st = h_btype h /\ ls_ctx st <= h_ctx h /\ lo <= lo' /\ lo' + ls_size st <= hi) /\
      (forall pos, lo <= pos < hi -> exists s lo' hi', In (s, t) cns /\ dget s lay = Some (k, (lo', hi')) /\ lo' <= pos < hi') /\
      (forall s s' lo1 hi1 lo2 hi2 pos, In (s, t) cns -> In (s', t) cns -> dget s lay = Some (k, (lo1, hi1)) ->
         dget s' lay = Some (k, (lo2, hi2)) -> lo1 <= pos < hi1 -> lo2 <= pos < hi2 -> s = s').
  Proof.
    intros Hc I0.
    destruct (create_layout_parts _ _ _ L) as [fos [cns' [hubs0 [Hf [Hc' [Hh [Eh El]]]]]]].
    rewrite Hc in Hc'. injection Hc' as <-.
    destruct (sink_hub layers W fos Hf cns Hc hubs0 Hh _ _ I0) as [k [h [sl [Hk [Ht [D Hsrc]]]]]].
    assert (Hh0 : In h hubs0) by (apply (lhubs_In hubs0); eapply nth_error_In; eauto).
    destruct (hub_ok_of layers fos cns hubs0 Hh h Hh0) as [src [snk [Ok _]]].
    assert (Sub : forall p v, dget p (fill (layout_entries (lhubs hubs0)) []) = Some v -> dget p lay = Some v).
    { intros p v Hp. rewrite El. now apply default_other, default_other. }
    assert (Hkh : nth_error hubs k = Some h) by (rewrite Eh; exact Hk).
    assert (Ht' := Ht). apply In_nth_error in Ht'. destruct Ht' as [j Hj].
    assert (Hex : exists s, In s (h_sources h) /\ In (s, t) cns) by (exists s0; auto).
    destruct (sink_slice_block _ _ _ _ _ _ _ Ok Hj Hex) as [lo [hi [Hab [Esl Hb]]]].
    assert (X : dget t (fill (layout_entries (lhubs hubs0)) []) = Some (k, sink_slice h j)).
    { apply (layout_spec layers W fos Hf cns Hc hubs0 Hh). exists h. split; [assumption|]. unfold get_indices. apply in_or_app. right.
      unfold sink_indices. apply in_map_iff. exists j. rewrite (nth_error_nth _ _ _ Hj). split; [reflexivity|].
      apply in_seq. split; [lia|]. apply nth_error_Some. congruence. }
    assert (Src : forall i s, nth_error (h_sources h) i = Some s -> exists st,
       dget s lay = Some (k, (offset (h_sizes h) i, offset (h_sizes h) (S i))) /\ dget s (stub layers) = Some st /\
       offset (h_sizes h) (S i) = offset (h_sizes h) i + ls_size st /\ ls_btype st = h_btype h /\ ls_ctx st <= h_ctx h).
    { intros i s Hi. destruct (source_slice_spec _ _ _ _ _ Ok i s Hi) as [H4 [st [Hst Hoff]]]. exists st. split.
      - apply Sub. apply (layout_spec layers W fos Hf cns Hc hubs0 Hh). exists h. split; [assumption|]. unfold get_indices. apply in_or_app. left. eapply nth_error_In; eauto.
      - split; [exact Hst|]. split; [exact Hoff|]. destruct Ok as [_ [_ [_ [S _]]]].
        destruct (S i s Hi) as [st' [H1 [_ [H2 [H3 _]]]]]. rewrite Hst in H1. injection H1 as <-. auto. }
    exists k, h, (offset (h_sizes h) lo), (offset (h_sizes h) hi).
    split; [rewrite <- Esl; now apply Sub|]. split; [exact Hkh|]. split.
    { split; [apply offset_mono; lia|]. rewrite <- (hub_size_offset _ _ _ _ _ Ok). apply offset_mono. lia. }
    split; [|split].
    - intros s Hs. destruct (In_nth_error _ _ (Hsrc s Hs)) as [i Hi]. destruct (Src i s Hi) as [st [H1 [H2 [H3 [H4 H5]]]]].
      assert (Hr : lo <= i < hi) by now apply (Hb i s Hi).
      exists (offset (h_sizes h) i), st. rewrite <- H3. split; [exact H1|]. split; [exact H2|]. split.
      { assert (Y : In s (map fst (stub layers))) by (now apply dget_Some_key in H2). apply stub_names in Y.
        destruct Y as [l [c [d [y [Hl [Hd' [Hy ->]]]]]]]. now apply (not_root l c d y). }
      split; [exact H4|]. split; [exact H5|]. split; apply offset_mono; lia.
    - intros pos Hpos. destruct (proj1 (offset_find (h_sizes h) lo hi pos ltac:(lia)) Hpos) as [i [Hi Hp]].
      destruct (nth_error (h_sources h) i) as [s|] eqn:E; [|apply nth_error_None in E; lia].
      destruct (Src i s E) as [st [H1 _]]. exists s, (offset (h_sizes h) i), (offset (h_sizes h) (S i)).
      split; [now apply (Hb i s E)|]. auto.
    - intros s s' lo1 hi1 lo2 hi2 pos Hs Hs' D1 D2 P1 P2.
      destruct (In_nth_error _ _ (Hsrc s Hs)) as [i Hi]. destruct (In_nth_error _ _ (Hsrc s' Hs')) as [i' Hi'].
      destruct (Src i s Hi) as [st [H1 _]]. destruct (Src i' s' Hi') as [st' [H1' _]].
      rewrite D1 in H1. injection H1 as -> ->. rewrite D2 in H1'. injection H1' as -> ->.
      assert (i = i') by (apply (offset_unique (h_sizes h) i i' pos); lia). congruence.
  Qed.

  Lemma input_stub l' x sti : In l' layers -> In (x, sti) (l_in l') ->
    dget (path3 (l_name l') "inputs" x) (stub layers) = Some sti /\
    smem (path3 (l_name l') "inputs" x) ["parameters"; "gradients"] = false.
  Proof.
    intros Hl' Hx. assert (Hx' := in_map fst _ _ Hx). simpl in Hx'.
    assert (Hd : In ("inputs", sorted_entries (l_in l')) (cat_entries l')) by (simpl; tauto).
    assert (Hxs : In x (map fst (sorted_entries (l_in l')))) by now apply sorted_fst.
    split; [|exact (not_root l' "inputs" _ x Hl' Hd Hxs)].
    apply In_dget; [now apply stub_NoDup|]. apply stub_In. exists l', "inputs", (sorted_entries (l_in l')), x.
    split; [assumption|]. split; [assumption|]. split; [|reflexivity]. unfold sorted_entries. now apply isort_In.
  Qed.
  Lemma input_rows l' x sti T B a : In l' layers -> In (x, sti) (l_in l') -> (exists s, connected l' x s) ->
    ls_ctx sti = 0 ->
    (forall s st, connected l' x s -> dget s (stub layers) = Some st -> ls_btype st = ls_btype sti) ->
    array_view layers hubs lay T B (path3 (l_name l') "inputs" x) = Some a ->
    exists srcs, NoDup srcs /\ (forall s, In s srcs <-> connected l' x s) /\
      a_shape a = lead_shape sti T B ++ ls_feat sti /\
      (forall s, In s srcs -> exists a' st, array_view layers hubs lay T B s = Some a' /\ dget s (stub layers) = Some st /\
         a_shape a' = lead_shape st T B ++ ls_feat st /\ ls_btype st = ls_btype sti) /\
      forall lead, length lead = length (lead_shape sti T B) ->
        row_addresses a (ls_feat sti) lead = flat_map (source_row T B lead) srcs.
  Proof.
    intros Hl' Hx [s0 Hs0] Hctx Hbt V.
    assert (Hx' := in_map fst _ _ Hx). simpl in Hx'.
    destruct (create_layout_parts _ _ _ L) as [_ [cns [_ [_ [Hc _]]]]].
    assert (Con : forall s, In (s, path3 (l_name l') "inputs" x) cns <-> connected l' x s) by (intros s; now apply to_input).
    destruct (input_stub l' x sti Hl' Hx) as [St Nr].
    destruct (sink_rows cns _ sti s0 Hc (proj2 (Con s0) Hs0) St Nr Hctx) as [srcs [N [S X]]].
    - intros s st Hs. apply Hbt. now apply Con.
    - destruct (X T B) as [Vs [_ R]]. destruct (R a V) as [Sh Rw]. exists srcs. split; [exact N|]. split; [intros s; now rewrite S|]. auto.
  Qed.
End Layout.

(** ** Parameters through resizing and handler changes *)
Section History.
  Variable V : Type.
  Variable zero : V.
  Notation read_parameters := (read_parameters V).
  Notation write_parameters := (write_parameters V zero).
  Notation resize := (resize V zero).
  Notation set_handler := (set_handler V zero).

  Lemma read_write_block m lo vs : read_block V (write_block V zero m lo vs) lo (length vs) = vs.
  Proof.
    unfold read_block, write_block. apply nth_error_ext. intros i. rewrite nth_error_map.
    destruct (le_lt_dec (length vs) i) as [H|H].
    - rewrite (proj2 (nth_error_None (seq lo (length vs)) i)) by (rewrite seq_length; lia). simpl. symmetry. now apply nth_error_None.
    - rewrite (nth_error_nth' (seq lo (length vs)) 0) by (rewrite seq_length; lia). rewrite seq_nth by lia. cbn [option_map].
      replace (lo <=? lo + i) with true by (symmetry; apply Nat.leb_le; lia).
      replace (lo + i <? lo + length vs) with true by (symmetry; apply Nat.ltb_lt; lia).
      cbn [andb]. replace (lo + i - lo) with i by lia. symmetry. now apply nth_error_nth'.
  Qed.
  Lemma read_block_length m lo n : length (read_block V m lo n) = n.
  Proof. unfold read_block. now rewrite map_length, seq_length. Qed.

  Lemma read_write m vs : bm_views V m <> None -> length vs = par_len V m -> read_parameters (write_parameters m vs) = Some vs.
  Proof.
    intros N Hl. unfold BuffersModel.read_parameters, BuffersModel.write_parameters. destruct (bm_views V m) as [tb|] eqn:E; [|contradiction].
    cbn. f_equal. unfold par_cell, par_len in *. cbn in *. rewrite <- Hl. apply read_write_block.
  Qed.
  Lemma read_length m vs : read_parameters m = Some vs -> length vs = par_len V m.
  Proof. unfold BuffersModel.read_parameters. destruct (bm_views V m); [|discriminate]. intros [= <-]. apply read_block_length. Qed.

  Lemma resize_parameters m T B fresh vs : read_parameters m = Some vs -> read_parameters (resize m T B fresh) = Some vs.
  Proof.
    intros H. unfold BuffersModel.resize. destruct (match bm_sizes V m with Some _ => _ | None => _ end); [assumption|].
    rewrite H. apply read_write; [discriminate|]. apply read_length in H. exact H.
  Qed.
  Lemma resize_views m T B fresh : bm_views V m <> None \/ bm_sizes V m = None -> bm_views V (resize m T B fresh) <> None.
  Proof.
    intros H. unfold BuffersModel.resize. destruct (match bm_sizes V m with Some _ => _ | None => _ end) eqn:E.
    - destruct H as [H|H]; [assumption|]. rewrite H in E. discriminate.
    - destruct (read_parameters m); discriminate.
  Qed.
  Lemma set_handler_parameters m fresh vs : read_parameters m = Some vs -> read_parameters (set_handler m fresh) = Some vs.
  Proof.
    intros H. unfold BuffersModel.set_handler. rewrite H. apply read_write.
    - apply resize_views. now right.
    - apply read_length in H. exact H.
  Qed.

  (** What can happen to the memory: other buffers are written by the passes. *)
  Inductive step : manager V -> manager V -> option (list V) -> Prop :=
  | step_resize m T B fresh : step m (resize m T B fresh) None
  | step_handler m fresh : step m (set_handler m fresh) None
  | step_write m vs : length vs = par_len V m -> step m (write_parameters m vs) (Some vs)
  | step_other m a v :
      (forall tb, bm_views V m = Some tb -> ~ (par_cell V m tb <= a < par_cell V m tb + par_len V m)) ->
      step m (mkManager V (bm_hubs V m) (bm_par V m) (bm_sizes V m) (bm_size V m) (upd V (bm_mem V m) a v) (bm_views V m)) None.

  (** [history m vs]: m is reached from a new manager, vs is what was last
      written to the parameters (or what they initially contain). *)
  Inductive history (hubs : list hub) (par : nat * (nat * nat)) : manager V -> list V -> Prop :=
  | history_new fresh vs : read_parameters (new_manager V zero hubs par fresh) = Some vs ->
      history hubs par (new_manager V zero hubs par fresh) vs
  | history_step m vs m' w : history hubs par m vs -> step m m' w ->
      history hubs par m' (match w with Some ws => ws | None => vs end).

  Lemma history_parameters hubs par m vs : history hubs par m vs -> read_parameters m = Some vs.
  Proof.
    induction 1 as [fresh vs H|m vs m' w H IH S]; [assumption|]. inversion S; subst.
    - now apply resize_parameters.
    - now apply set_handler_parameters.
    - apply read_write; [|assumption]. intros E. unfold BuffersModel.read_parameters in IH. rewrite E in IH. discriminate.
    - rewrite <- IH. unfold BuffersModel.read_parameters. cbn. destruct (bm_views V m) as [tb|] eqn:E; [|reflexivity].
      f_equal. unfold read_block. apply map_ext_in. intros b Hb. apply in_seq in Hb. unfold upd.
      destruct (Nat.eqb_spec b a) as [->|]; [|reflexivity]. exfalso. apply (H0 tb eq_refl). exact Hb.
  Qed.

  (** The allocated memory is always large enough for the current sizes. *)
  Lemma history_size hubs par m vs : history hubs par m vs ->
    bm_hubs V m = hubs /\ bm_par V m = par /\
    exists T B s, bm_sizes V m = Some (T, B) /\ bm_views V m = Some (T, B) /\ bm_size V m = Some s /\ total_size hubs T B <= s.
  Proof.
    assert (R : forall m T B fresh, bm_hubs V m = hubs -> bm_par V m = par ->
      (bm_sizes V m = None \/ exists T B s, bm_sizes V m = Some (T, B) /\ bm_views V m = Some (T, B) /\ bm_size V m = Some s /\ total_size hubs T B <= s) ->
      bm_hubs V (resize m T B fresh) = hubs /\ bm_par V (resize m T B fresh) = par /\
      exists s, bm_sizes V (resize m T B fresh) = Some (T, B) /\ bm_views V (resize m T B fresh) = Some (T, B) /\
        bm_size V (resize m T B fresh) = Some s /\ total_size hubs T B <= s).
    { clear m vs. intros m T B fresh Eh Ep H. unfold BuffersModel.resize.
      destruct (match bm_sizes V m with Some _ => _ | None => _ end) eqn:E.
      - destruct H as [H|[T' [B' [s [H1 [H2 [H3 H4]]]]]]]; [rewrite H in E; discriminate|]. rewrite H1 in E.
        apply andb_true_iff in E. destruct E as [E1 E2]. apply Nat.eqb_eq in E1, E2. subst T' B'.
        split; [assumption|]. split; [assumption|]. exists s. auto.
      - set (bigger := match bm_size V m with Some s => s <? total_size (bm_hubs V m) T B | None => true end).
        assert (Sz : exists s, (if bigger then Some (total_size (bm_hubs V m) T B) else bm_size V m) = Some s /\ total_size hubs T B <= s).
        { unfold bigger. destruct (bm_size V m) as [s|].
          - destruct (Nat.ltb_spec s (total_size (bm_hubs V m) T B)) as [C|C]; [eexists; split; [reflexivity | rewrite Eh; lia]|].
            exists s. split; [reflexivity | rewrite <- Eh; lia].
          - eexists. split; [reflexivity | rewrite Eh; lia]. }
        destruct Sz as [s [Es Hs]].
        destruct (read_parameters m) as [ps|]; cbn; (split; [assumption|]); (split; [assumption|]); exists s; auto. }
    induction 1 as [fresh vs H|m vs m' w H [IH1 [IH2 [T [B [s [IH3 [IH4 [IH5 IH6]]]]]]]] S].
    - destruct (R (mkManager V hubs par None None fresh None) 0 0 fresh eq_refl eq_refl (or_introl eq_refl)) as [A1 [A2 [s [A3 A4]]]].
      unfold new_manager. split; [assumption|]. split; [assumption|]. exists 0, 0, s. auto.
    - inversion S; subst.
      + destruct (R m T0 B0 fresh eq_refl eq_refl) as [A1 [A2 [s' [A3 [A4 [A5 A6]]]]]]; [right; exists T, B, s; auto|].
        split; [assumption|]. split; [assumption|]. exists T0, B0, s'. auto.
      + set (m1 := mkManager V (bm_hubs V m) (bm_par V m) None None (bm_mem V m) None).
        destruct (R m1 0 0 fresh eq_refl eq_refl (or_introl eq_refl)) as [A1 [A2 [s' [A3 [A4 [A5 A6]]]]]].
        assert (E : BuffersModel.set_handler V zero m fresh = match read_parameters m with Some ps => write_parameters (resize m1 0 0 fresh) ps | None => resize m1 0 0 fresh end) by reflexivity.
        rewrite E. assert (Wp : forall ps, bm_hubs V (write_parameters (resize m1 0 0 fresh) ps) = bm_hubs V (resize m1 0 0 fresh) /\
          bm_par V (write_parameters (resize m1 0 0 fresh) ps) = bm_par V (resize m1 0 0 fresh) /\
          bm_sizes V (write_parameters (resize m1 0 0 fresh) ps) = bm_sizes V (resize m1 0 0 fresh) /\
          bm_views V (write_parameters (resize m1 0 0 fresh) ps) = bm_views V (resize m1 0 0 fresh) /\
          bm_size V (write_parameters (resize m1 0 0 fresh) ps) = bm_size V (resize m1 0 0 fresh)).
        { intros ps. unfold BuffersModel.write_parameters. destruct (bm_views V (resize m1 0 0 fresh)) eqn:Ev; cbn; auto. }
        destruct (read_parameters m) as [ps|].
        * destruct (Wp ps) as [W1 [W2 [W3 [W4 W5]]]]. rewrite W1, W2. split; [assumption|]. split; [assumption|].
          exists 0, 0, s'. rewrite W3, W4, W5. auto.
        * split; [assumption|]. split; [assumption|]. exists 0, 0, s'. auto.
      + unfold BuffersModel.write_parameters. rewrite IH4. cbn. split; [reflexivity|]. split; [reflexivity|]. exists T, B, s. auto.
      + cbn. split; [reflexivity|]. split; [reflexivity|]. exists T, B, s. auto.
  Qed.

  (** ** Contexts *)
  Lemma fold_cells {X} (g : memory V -> X -> memory V) (key : X -> bool) (F : V -> V) A l :
    (forall m x, In x l -> key x = false -> g m x A = m A) ->
    (forall m x, In x l -> key x = true -> g m x A = F (m A)) ->
    (forall v, F (F v) = F v) ->
    forall m, fold_left g l m A = if existsb key l then F (m A) else m A.
  Proof.
    intros H1 H2 HF. induction l as [|x r IH]; intros m; [reflexivity|]. simpl fold_left. rewrite IH.
    - simpl. destruct (key x) eqn:E.
      + rewrite (H2 m x) by (auto; now left). simpl. destruct (existsb key r); [apply HF | reflexivity].
      + rewrite (H1 m x) by (auto; now left). reflexivity.
    - intros m' y Hy. apply H1. now right.
    - intros m' y Hy. apply H2. now right.
  Qed.
  Lemma write_block_out m lo vs b : ~ (lo <= b < lo + length vs) -> write_block V zero m lo vs b = m b.
  Proof.
    intros H. unfold write_block. destruct (Nat.leb_spec lo b) as [H1|H1]; [|reflexivity].
    destruct (Nat.ltb_spec b (lo + length vs)) as [H2|H2]; [lia|reflexivity].
  Qed.
  Lemma write_block_in m lo vs b : lo <= b < lo + length vs -> write_block V zero m lo vs b = nth (b - lo) vs zero.
  Proof.
    intros H. unfold write_block. replace (lo <=? b) with true by (symmetry; apply Nat.leb_le; lia).
    replace (b <? lo + length vs) with true by (symmetry; apply Nat.ltb_lt; lia). reflexivity.
  Qed.

  Variable hubs : list hub.
  Variables T B : nat.
  Let enum := combine (seq 0 (length hubs)) hubs.
  Lemma enum_spec k h : In (k, h) enum <-> nth_error hubs k = Some h.
  Proof.
    unfold enum. split.
    - intros H1. apply In_nth_error in H1. destruct H1 as [i Hi].
      assert (Ln : i < length hubs).
      { assert (X : i < length (combine (seq 0 (length hubs)) hubs)) by (apply nth_error_Some; congruence).
        rewrite combine_length, seq_length in X. lia. }
      assert (E : nth_error (combine (seq 0 (length hubs)) hubs) i = Some (i, nth i hubs h)).
      { rewrite (nth_error_nth' _ (0, h)) by (rewrite combine_length, seq_length; lia).
        rewrite combine_nth by now rewrite seq_length. now rewrite seq_nth. }
      rewrite E in Hi. injection Hi as Ei Hn. rewrite <- Ei. rewrite (nth_error_nth' hubs h Ln). now f_equal.
    - intros H1. assert (Ln : k < length hubs) by (apply nth_error_Some; congruence).
      apply nth_error_In with k. rewrite (nth_error_nth' _ (0, h)) by (rewrite combine_length, seq_length; lia).
      rewrite combine_nth by now rewrite seq_length. rewrite seq_nth by assumption. now rewrite (nth_error_nth _ _ _ H1).
  Qed.

  Lemma hub_base_S k h : nth_error hubs k = Some h -> hub_base hubs T B (S k) = hub_base hubs T B k + hub_cells T B h.
  Proof.
    intros Hk. unfold hub_base. rewrite offset_S. f_equal. erewrite nth_error_nth; [reflexivity|]. now rewrite nth_error_map, Hk.
  Qed.

  (** Cell (row, f) of hub k. *)
  Variables (k : nat) (h : hub) (row f : nat).
  Hypothesis Hk : nth_error hubs k = Some h.
  Hypothesis Hr : row < hub_rows h T B.
  Hypothesis Hf : f < h_size h.
  Let A := hub_base hubs T B k + row * h_size h + f.

  Lemma cell_in_hub k' h' : nth_error hubs k' = Some h' -> hub_base hubs T B k' <= A < hub_base hubs T B k' + hub_cells T B h' -> k' = k.
  Proof.
    intros Hk' H. rewrite <- (hub_base_S k' h' Hk') in H.
    assert (R := hub_range hubs k h T B row f Hk Hr Hf). fold A in R.
    apply (offset_unique (map (hub_cells T B) hubs) k' k A); [exact H | exact R].
  Qed.

  Lemma has_context_rows h' : has_context h' = true -> hub_rows h' T B = (T + h_ctx h') * B.
  Proof.
    unfold has_context, hub_rows. intros H. apply andb_true_iff in H. destruct H as [H _]. apply Nat.eqb_eq in H. now rewrite H.
  Qed.

  (** Exactly the rows from T - context_size on are cleared. *)
  Lemma clear_context_spec m :
    clear_context V zero hubs T B m A =
    if has_context h && (py_start T (h_ctx h) (T + h_ctx h) * B <=? row) then zero else m A.
  Proof.
    unfold clear_context. fold enum.
    rewrite (fold_cells (clear_hub V zero hubs T B) (fun kh => fst kh =? k)
       (fun v => if has_context h && (py_start T (h_ctx h) (T + h_ctx h) * B <=? row) then zero else v)).
    - replace (existsb _ enum) with true; [reflexivity|]. symmetry. apply existsb_exists. exists (k, h). split; [now apply enum_spec | apply Nat.eqb_refl].
    - intros m' [k' h'] Hin Hne. apply enum_spec in Hin. cbn in Hne. apply Nat.eqb_neq in Hne.
      unfold clear_hub. destruct (has_context h') eqn:Hc; [|reflexivity].
      apply write_block_out. rewrite repeat_length. intros R. apply Hne. apply (cell_in_hub k' h' Hin).
      rewrite hub_cells_rows, (has_context_rows h' Hc). unfold row_cell, row_size in R.
      set (st := py_start T (h_ctx h') (T + h_ctx h')) in *. assert (st <= T + h_ctx h').
      { unfold st, py_start. destruct (h_ctx h' <=? T); lia. }
      nia.
    - intros m' [k' h'] Hin He. apply enum_spec in Hin. cbn in He. apply Nat.eqb_eq in He. subst k'. rewrite Hk in Hin. injection Hin as <-.
      unfold clear_hub. destruct (has_context h) eqn:Hc; [|reflexivity]. cbn [andb].
      set (st := py_start T (h_ctx h) (T + h_ctx h)). assert (st <= T + h_ctx h).
      { unfold st, py_start. destruct (h_ctx h <=? T); lia. }
      rewrite (has_context_rows h Hc) in Hr. unfold row_cell, row_size, A. destruct (Nat.leb_spec (st * B) row) as [C|C].
      + rewrite write_block_in.
        * apply nth_repeat.
        * rewrite repeat_length. nia.
      + apply write_block_out. rewrite repeat_length. nia.
    - intros v. destruct (has_context h && _); reflexivity.
  Qed.

  (** A given context is written behind the rows of the data. *)
  Lemma apply_context_spec context m :
    (forall c k' h', In (Some c, (k', h')) (combine context enum) -> length c = h_ctx h' * row_size B h' /\ h_btype h' = 2) ->
    (h_btype h = 2 -> row < T * B) ->
    apply_context V zero hubs T B context m A = m A.
  Proof.
    intros Hc Hrow. unfold apply_context. fold enum.
    rewrite (fold_cells (apply_hub V zero hubs T B) (fun _ => false) (fun v => v)).
    - replace (existsb _ (combine context enum)) with false; [reflexivity|]. clear. induction (combine context enum); simpl; auto.
    - intros m' [[c|] [k' h']] Hin _; [|reflexivity]. destruct (Hc c k' h' Hin) as [Hl Hb]. apply write_block_out. rewrite Hl. intros R.
      assert (Hin' : nth_error hubs k' = Some h').
      { apply enum_spec. now apply in_combine_r in Hin. }
      assert (k' = k).
      { apply (cell_in_hub k' h' Hin'). rewrite hub_cells_rows. unfold hub_rows. rewrite Hb. unfold row_cell, row_size in R. nia. }
      subst k'. rewrite Hk in Hin'. injection Hin' as <-. specialize (Hrow Hb).
      unfold row_cell, row_size, A in R. nia.
    - intros m' x Hin E. discriminate.
    - reflexivity.
  Qed.
End History.
