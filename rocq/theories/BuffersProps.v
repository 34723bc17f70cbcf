(** Property theorems C13 (concatenation), C14 (parameters survive), C15
    (buffers are disjoint), C17 (provided data). *)
From Coq Require Import String List Arith Bool Lia Permutation.
From Verif Require Import PyBase PyFacts UtilsModel UtilsProofs HubModel HubProofs LayoutModel LayoutProofs LayoutProps BuffersModel BuffersProofs.
Import ListNotations.
Open Scope string_scope.
Open Scope list_scope.
Open Scope nat_scope.

(** The structures of one category of a layer. *)
Definition arrays_of (l : layer) (category : string) : list (string * lstruct) :=
  if String.eqb category "outputs" then l_out l
  else if String.eqb category "output_deltas" then l_out l
  else if String.eqb category "parameters" then l_params l
  else if String.eqb category "gradients" then l_params l
  else if String.eqb category "internals" then l_int l else [].

Lemma arrays_cat l c x : In x (map fst (arrays_of l c)) ->
  owned c /\ exists d, In (c, d) (cat_entries l) /\ In x (map fst d).
Proof.
  unfold arrays_of. intros H.
  destruct (String.eqb_spec c "outputs") as [->|]; [split; [unfold owned; simpl; tauto|]; exists (l_out l); simpl; tauto|].
  destruct (String.eqb_spec c "output_deltas") as [->|];
    [split; [unfold owned; simpl; tauto|]; exists (backward_entries (l_out l)); rewrite backward_names; simpl; tauto|].
  destruct (String.eqb_spec c "parameters") as [->|]; [split; [unfold owned; simpl; tauto|]; exists (l_params l); simpl; tauto|].
  destruct (String.eqb_spec c "gradients") as [->|];
    [split; [unfold owned; simpl; tauto|]; exists (backward_entries (l_params l)); rewrite backward_names; simpl; tauto|].
  destruct (String.eqb_spec c "internals") as [->|]; [split; [unfold owned; simpl; tauto|]; exists (l_int l); simpl; tauto|].
  destruct H.
Qed.

(** C15: the outputs, parameters, internals, output deltas and gradients of all
    layers have their views, for all time and batch sizes. *)
Theorem C15_views_exist : forall layers hubs lay,
  wf_layers layers -> create_layout layers = LOk (hubs, lay) ->
  forall l c x T B, In l layers -> In x (map fst (arrays_of l c)) ->
  exists a st, array_view layers hubs lay T B (path3 (l_name l) c x) = Some a /\
    dget (path3 (l_name l) c x) (stub layers) = Some st /\
    a_shape a = match ls_btype st with 0 => [] | 1 => [B] | _ => [T + ls_ctx st; B] end ++ ls_feat st.
Proof.
  intros layers hubs lay W L l c x T B Hl Hx. destruct (arrays_cat l c x Hx) as [Ho [d [Hd Hx']]].
  exact (owned_view layers W hubs lay L l c d x T B Hl Hd Hx' Ho).
Qed.
Print Assumptions C15_views_exist.

(** C15: two different buffers never share a memory cell. *)
Theorem C15_disjoint : forall layers hubs lay,
  wf_layers layers -> create_layout layers = LOk (hubs, lay) ->
  forall l c x l' c' x' T B a a' idx idx',
  In l layers -> In x (map fst (arrays_of l c)) -> In l' layers -> In x' (map fst (arrays_of l' c')) ->
  array_view layers hubs lay T B (path3 (l_name l) c x) = Some a ->
  array_view layers hubs lay T B (path3 (l_name l') c' x') = Some a' ->
  in_range a idx -> in_range a' idx' ->
  (l_name l, c, x) <> (l_name l', c', x') -> address a idx <> address a' idx'.
Proof.
  intros layers hubs lay W L l c x l' c' x' T B a a' idx idx' Hl Hx Hl' Hx' V V' R R' N E.
  destruct (arrays_cat l c x Hx) as [Ho [d [Hd Hxd]]]. destruct (arrays_cat l' c' x' Hx') as [Ho' [d' [Hd' Hxd']]].
  destruct (owned_disjoint layers W hubs lay L l c d x l' c' d' x' T B a a' idx idx' Hl Hd Hxd Ho Hl' Hd' Hxd' Ho' V V' R R' E) as [E1 [E2 E3]].
  apply N. congruence.
Qed.
Print Assumptions C15_disjoint.

(** C15: the cells of a buffer are inside the allocated memory, and different
    entries have different cells. *)
Theorem C15_inside : forall layers hubs lay,
  wf_layers layers -> create_layout layers = LOk (hubs, lay) ->
  forall l c x T B a idx, In l layers -> In x (map fst (arrays_of l c)) ->
  array_view layers hubs lay T B (path3 (l_name l) c x) = Some a -> in_range a idx ->
  address a idx < total_size hubs T B /\
  forall idx', in_range a idx' -> address a idx = address a idx' -> idx = idx'.
Proof.
  intros layers hubs lay W L l c x T B a idx Hl Hx V R. destruct (arrays_cat l c x Hx) as [Ho [d [Hd Hxd]]]. split.
  - exact (owned_in_memory layers W hubs lay L l c d x T B a idx Hl Hd Hxd Ho V R).
  - intros idx' R'. exact (owned_faithful layers W hubs lay L l c d x T B a idx idx' Hl Hd Hxd Ho V R R').
Qed.
Print Assumptions C15_inside.

(** C15: so writing an entry of one buffer changes no entry of another. *)
Theorem C15_write : forall (V : Type) layers hubs lay,
  wf_layers layers -> create_layout layers = LOk (hubs, lay) ->
  forall l c x l' c' x' T B a a' idx idx' (m : memory V) v,
  In l layers -> In x (map fst (arrays_of l c)) -> In l' layers -> In x' (map fst (arrays_of l' c')) ->
  array_view layers hubs lay T B (path3 (l_name l) c x) = Some a ->
  array_view layers hubs lay T B (path3 (l_name l') c' x') = Some a' ->
  in_range a idx -> in_range a' idx' ->
  (l_name l, c, x) <> (l_name l', c', x') ->
  upd V m (address a idx) v (address a' idx') = m (address a' idx').
Proof.
  intros V layers hubs lay W L l c x l' c' x' T B a a' idx idx' m v Hl Hx Hl' Hx' Va Va' R R' N.
  unfold upd. destruct (Nat.eqb_spec (address a' idx') (address a idx)) as [E|]; [|reflexivity].
  exfalso. symmetry in E. revert E. now apply (C15_disjoint layers hubs lay W L l c x l' c' x' T B).
Qed.
Print Assumptions C15_write.

(** In the network of C12_example_layout, with 3 time steps and 2 sequences:
    A.outputs.default has a context row and shares a hub with B's outputs. *)
Example C15_example :
  match create_layout ex_layers with
  | LOk (hubs, lay) =>
      array_view ex_layers hubs lay 3 2 "A.outputs.default" = Some (mkArr 49 [(4, 10); (2, 5); (2, 1)]) /\
      array_view ex_layers hubs lay 3 2 "B.outputs.default" = Some (mkArr 51 [(3, 10); (2, 5); (3, 1)]) /\
      array_view ex_layers hubs lay 3 2 "B.parameters.W" = Some (mkArr 10 [(3, 4); (4, 1)])
  | LErr _ => False
  end.
Proof. vm_compute. repeat split. Qed.

(** ** C13 *)
(** C13: row by row (i.e. for each time step and sequence) the flattened
    features of an input are the concatenation of the flattened features of
    the buffers connected to it. *)
Theorem C13_flattened : forall layers hubs lay,
  wf_layers layers -> create_layout layers = LOk (hubs, lay) ->
  forall l x st T B a, In l layers -> In (x, st) (l_in l) ->
  (exists s, connected layers l x s) -> ls_ctx st = 0 ->
  (forall s st', connected layers l x s -> dget s (stub layers) = Some st' -> ls_btype st' = ls_btype st) ->
  array_view layers hubs lay T B (path3 (l_name l) "inputs" x) = Some a ->
  exists srcs, NoDup srcs /\ (forall s, In s srcs <-> connected layers l x s) /\
    forall lead, length lead = length (match ls_btype st with 0 => [] | 1 => [B] | _ => [T + ls_ctx st; B] end) ->
      map (fun f => address a (lead ++ f)) (all_indices (ls_feat st)) =
      flat_map (fun s => match array_view layers hubs lay T B s, dget s (stub layers) with
                         | Some a', Some st' => map (fun f => address a' (lead ++ f)) (all_indices (ls_feat st'))
                         | _, _ => [] end) srcs.
Proof.
  intros layers hubs lay W L l x st T B a Hl Hx Hex Hc Hb V.
  destruct (input_rows layers W hubs lay L l x st T B a Hl Hx Hex Hc Hb V) as [srcs [N [S [_ [_ R]]]]].
  exists srcs. split; [exact N|]. split; [exact S|]. exact R.
Qed.
Print Assumptions C13_flattened.

(** The start of each source in the concatenation. *)
Fixpoint starts (from : nat) (sizes : list nat) : list nat :=
  match sizes with [] => [] | n :: r => from :: starts (from + n) r end.

Lemma flat_map_nth {A} (f : A -> list nat) srcs i s j sizes :
  nth_error srcs i = Some s -> j < length (f s) -> (forall i' s', nth_error srcs i' = Some s' -> nth_error sizes i' = Some (length (f s'))) ->
  length sizes = length srcs ->
  nth_error (flat_map f srcs) (offset sizes i + j) = nth_error (f s) j.
Proof.
  revert i sizes. induction srcs as [|s0 r IH]; intros [|i] sizes Hi Hj Hs Hl; simpl in Hi; try discriminate.
  - injection Hi as ->. rewrite offset_0. simpl. now rewrite nth_error_app1.
  - destruct sizes as [|n sizes]; [discriminate|]. assert (E := Hs 0 s0 eq_refl). injection E as ->.
    simpl flat_map. rewrite nth_error_app2.
    + unfold offset. simpl. fold (offset sizes i). replace (length (f s0) + offset sizes i + j - length (f s0)) with (offset sizes i + j) by lia.
      apply (IH i sizes); try assumption; [|simpl in Hl; lia]. intros i' s' H'. apply (Hs (S i') s'). exact H'.
    + unfold offset. simpl. lia.
Qed.

(** C13 for one-dimensional features: entry off_i + f of the input is entry f
    of the i-th source, at the same time step and sequence. *)
Theorem C13_one_dimensional : forall layers hubs lay,
  wf_layers layers -> create_layout layers = LOk (hubs, lay) ->
  forall l x n T B a, In l layers -> In (x, mkStruct 2 [n] 0 false) (l_in l) ->
  (exists s, connected layers l x s) ->
  (forall s, connected layers l x s -> exists m c w, dget s (stub layers) = Some (mkStruct 2 [m] c w)) ->
  array_view layers hubs lay T B (path3 (l_name l) "inputs" x) = Some a ->
  exists srcs sizes, NoDup srcs /\ (forall s, In s srcs <-> connected layers l x s) /\ length sizes = length srcs /\
    n = fold_right Nat.add 0 sizes /\
    forall i s, nth_error srcs i = Some s ->
      exists a' m c w, array_view layers hubs lay T B s = Some a' /\ dget s (stub layers) = Some (mkStruct 2 [m] c w) /\
        nth_error sizes i = Some m /\
        forall t b f, f < m -> address a [t; b; fold_right Nat.add 0 (firstn i sizes) + f] = address a' [t; b; f].
Proof.
  intros layers hubs lay W L l x n T B a Hl Hx Hex Hc V.
  destruct (input_rows layers W hubs lay L l x _ T B a Hl Hx Hex eq_refl) with (2 := V) as [srcs [N [S [Sh [Vs R]]]]].
  { intros s st' Hs Hst. destruct (Hc s Hs) as [m [c [w E]]]. rewrite E in Hst. injection Hst as <-. reflexivity. }
  set (size := fun s => match dget s (stub layers) with Some st => nth 0 (ls_feat st) 0 | None => 0 end).
  exists srcs, (map size srcs). split; [exact N|]. split; [exact S|]. split; [apply map_length|].
  assert (One : forall a (m : nat) lead, row_addresses a [m] lead = map (fun f => address a (lead ++ [f])) (seq 0 m)).
  { intros a0 m lead. unfold row_addresses. cbn [all_indices]. rewrite <- (map_id (seq 0 m)) at 2. rewrite map_map.
    rewrite map_flat_map. cbn [map]. induction (seq 0 m) as [|q qs IHq]; [reflexivity|]. simpl. now f_equal. }
  assert (Len : forall lead i s, nth_error srcs i = Some s -> length (source_row layers hubs lay T B lead s) = size s).
  { intros lead i s Hi. apply nth_error_In in Hi. destruct (Vs s Hi) as [a' [st [V' [Hst _]]]].
    assert (Hs := proj1 (S s) Hi). destruct (Hc s Hs) as [m [c [w E]]]. unfold source_row, size. rewrite V', E.
    cbn [ls_feat nth]. rewrite One, map_length, seq_length. reflexivity. }
  split.
  { assert (E := R [0; 0] eq_refl). cbn [ls_feat] in E. rewrite One in E. apply (f_equal (@length nat)) in E.
    rewrite map_length, seq_length in E. rewrite E. clear - Len.
    assert (Len' : forall s, In s srcs -> length (source_row layers hubs lay T B [0; 0] s) = size s).
    { intros s Hs. apply In_nth_error in Hs. destruct Hs as [i Hi]. eapply Len; eauto. }
    clear Len. induction srcs as [|s r IH]; [reflexivity|]. simpl. rewrite app_length. rewrite IH by (intros; apply Len'; now right).
    rewrite Len' by now left. reflexivity. }
  intros i s Hi. assert (Hin := nth_error_In _ _ Hi). destruct (Vs s Hin) as [a' [st [V' [Hst _]]]].
  destruct (Hc s (proj1 (S s) Hin)) as [m [c [w E]]]. exists a', m, c, w.
  split; [assumption|]. split; [assumption|]. split; [rewrite nth_error_map, Hi; cbn; unfold size; now rewrite E|].
  intros t b f Hf. assert (Er := R [t; b] eq_refl). cbn [ls_feat] in Er. rewrite One in Er.
  set (off := fold_right Nat.add 0 (firstn i (map size srcs))).
  assert (Q := flat_map_nth (source_row layers hubs lay T B [t; b]) srcs i s f (map size srcs) Hi).
  rewrite (Len [t; b] i s Hi) in Q. assert (Es : size s = m) by (unfold size; now rewrite E). rewrite Es in Q.
  specialize (Q Hf). unfold offset in Q. fold off in Q. rewrite <- Er in Q.
  assert (Es' : source_row layers hubs lay T B [t; b] s = map (fun f => address a' ([t; b] ++ [f])) (seq 0 m)).
  { unfold source_row. rewrite V', E. cbn [ls_feat]. apply One. }
  rewrite Es' in Q. rewrite !nth_error_map in Q.
  assert (Qf : nth_error (seq 0 m) f = Some f).
  { rewrite (nth_error_nth' _ 0) by (rewrite seq_length; assumption). now rewrite seq_nth. }
  rewrite Qf in Q. cbn [option_map] in Q.
  assert (Q' := Q ltac:(intros i' s' Hi'; rewrite nth_error_map, Hi'; cbn; f_equal; symmetry; eapply Len; eauto) ltac:(apply map_length)).
  destruct (nth_error (seq 0 n) (off + f)) as [q|] eqn:Eq; [|discriminate]. cbn in Q'. injection Q' as Q'.
  assert (Lq : off + f < n). { rewrite <- (seq_length n 0). apply nth_error_Some. congruence. }
  rewrite (nth_error_nth' _ 0) in Eq by (rewrite seq_length; assumption). rewrite seq_nth in Eq by assumption. injection Eq as <-. exact Q'.
Qed.
Print Assumptions C13_one_dimensional.

(** C13 is false for multi-dimensional features: two sources of feature shape
    (2, 1) connected to one input of shape (2, 2) (as computed by
    combine_buffer_structures): entry (0, 1) of the input is entry (1, 0) of
    the first source instead of entry (0, 0) of the second. *)
Definition st21 := mkStruct 2 [2; 1] 0 false.
Definition ex_images : list layer :=
  [ mkLayer "Input" [] [("a", st21); ("b", st21)] [] []
      [mkConn "Input" "a" "L" "default"; mkConn "Input" "b" "L" "default"];
    mkLayer "L" [("default", mkStruct 2 [2; 2] 0 false)] [("default", mkStruct 2 [2; 2] 0 false)] [] [] [] ].
Lemma ex_images_wf : wf_layers ex_images.
Proof.
  assert (Inv : forall x cat y, out_ref x (cat, y) -> cat = "internals" -> x = dotdot_path "internals" y).
  { intros x cat y H E. inversion H; subst; try discriminate; reflexivity. }
  split.
  - repeat constructor; simpl; intuition discriminate.
  - intros l Hl. simpl in Hl. intuition subst; cmp.
  - intros l Hl. simpl in Hl. intuition subst; split; simpl; repeat constructor; simpl; try cmp; intuition discriminate.
  - intros l Hl. simpl in Hl. intuition subst; split; simpl; repeat constructor; simpl; try cmp; intuition discriminate.
  - intros l Hl. simpl in Hl. intuition subst; split; simpl; repeat constructor; simpl; try cmp; intuition discriminate.
  - intros l Hl. simpl in Hl. intuition subst; split; simpl; repeat constructor; simpl; try cmp; intuition discriminate.
  - intros l c [<-|[<-|[]]] Hc; simpl in Hc; [|destruct Hc]. destruct Hc as [<-|[<-|[]]]; (split; [reflexivity|]); (split;
      [ eexists; eexists; split; [apply out_output; cmp | simpl; tauto]
      | exists (nth 1 ex_images (mkLayer "" [] [] [] [] [])); simpl; tauto ]).
  - intros l c x st [<-|[<-|[]]] Hc Ho Hx; simpl in Hx; contradiction.
Qed.
Theorem C13_multi_dimensional_refuted :
  ~ (forall layers hubs lay, wf_layers layers -> create_layout layers = LOk (hubs, lay) ->
     forall T B, 0 < T -> 0 < B ->
     forall l x n m1 m2 s1 s2 a a1 a2,
     In l layers -> In (x, mkStruct 2 [n; m1 + m2] 0 false) (l_in l) ->
     (forall s, connected layers l x s <-> s = s1 \/ s = s2) ->
     dget s1 (stub layers) = Some (mkStruct 2 [n; m1] 0 false) ->
     dget s2 (stub layers) = Some (mkStruct 2 [n; m2] 0 false) ->
     array_view layers hubs lay T B (path3 (l_name l) "inputs" x) = Some a ->
     array_view layers hubs lay T B s1 = Some a1 -> array_view layers hubs lay T B s2 = Some a2 ->
     (* in one of the two orders, the last axes are concatenated *)
     (forall t b i j, in_range a [t; b; i; j] ->
        address a [t; b; i; j] = if j <? m1 then address a1 [t; b; i; j] else address a2 [t; b; i; j - m1]) \/
     (forall t b i j, in_range a [t; b; i; j] ->
        address a [t; b; i; j] = if j <? m2 then address a2 [t; b; i; j] else address a1 [t; b; i; j - m2])).
Proof.
  intros H. destruct (create_layout ex_images) as [[hubs lay]|] eqn:E; [|exfalso; vm_compute in E; discriminate E].
  specialize (H ex_images hubs lay ex_images_wf E 1 1 (Nat.lt_0_1) (Nat.lt_0_1)
    (nth 1 ex_images (mkLayer "" [] [] [] [] [])) "default" 2 1 1 "Input.outputs.a" "Input.outputs.b").
  vm_compute in E. injection E as <- <-.
  specialize (H (mkArr 0 [(1, 4); (1, 4); (2, 2); (2, 1)]) (mkArr 0 [(1, 4); (1, 4); (2, 1); (1, 1)]) (mkArr 2 [(1, 4); (1, 4); (2, 1); (1, 1)])
    (or_intror (or_introl eq_refl)) (or_introl eq_refl)).
  assert (C : forall s, connected ex_images (nth 1 ex_images (mkLayer "" [] [] [] [] [])) "default" s <-> s = "Input.outputs.a" \/ s = "Input.outputs.b").
  { intros s. split.
    - intros [l [c [cat [y [[<-|[<-|[]]] [Hc [Ho [_ [_ ->]]]]]]]]]; [|destruct Hc].
      simpl in Hc. destruct Hc as [<-|[<-|[]]]; simpl in Ho; inversion Ho; subst; auto.
    - intros [->| ->]; [exists (nth 0 ex_images (mkLayer "" [] [] [] [] [])), (mkConn "Input" "a" "L" "default"), "outputs", "a"
                       |exists (nth 0 ex_images (mkLayer "" [] [] [] [] [])), (mkConn "Input" "b" "L" "default"), "outputs", "b"];
        (split; [now left|]); (split; [simpl; tauto|]); (split; [apply out_output; cmp|]); auto. }
  specialize (H C eq_refl eq_refl eq_refl eq_refl eq_refl). destruct H as [H|H]; specialize (H 0 0 0 1);
    (assert (R : in_range (mkArr 0 [(1, 4); (1, 4); (2, 2); (2, 1)]) [0; 0; 0; 1]) by (unfold in_range; cbn; repeat constructor));
    vm_compute in H; specialize (H R); discriminate H.
Qed.
Print Assumptions C13_multi_dimensional_refuted.

(** C13: the concatenation of the example network: C's input is A's output (2
    features) followed by B's (3 features). *)
Example C13_example :
  match create_layout ex_layers with
  | LOk (hubs, lay) =>
      match array_view ex_layers hubs lay 3 2 "C.inputs.default", array_view ex_layers hubs lay 3 2 "A.outputs.default",
            array_view ex_layers hubs lay 3 2 "B.outputs.default" with
      | Some c, Some a, Some b => address c [2; 1; 0] = address a [2; 1; 0] /\ address c [2; 1; 4] = address b [2; 1; 2]
      | _, _, _ => False
      end
  | LErr _ => False
  end.
Proof. vm_compute. split; reflexivity. Qed.

(** ** C14 *)
(** C14: after any history of resizes, handler changes, writes to the
    parameters and writes to other memory, reading the parameters gives the
    values written last. *)
Theorem C14_parameters_survive : forall (V : Type) (zero : V) hubs par m vs,
  history V zero hubs par m vs -> read_parameters V m = Some vs.
Proof. exact history_parameters. Qed.
Print Assumptions C14_parameters_survive.

(** C14: the memory is always large enough for the current sizes. *)
Theorem C14_memory_large_enough : forall (V : Type) (zero : V) hubs par m vs,
  history V zero hubs par m vs ->
  exists T B s, bm_sizes V m = Some (T, B) /\ bm_views V m = Some (T, B) /\ bm_size V m = Some s /\ total_size hubs T B <= s.
Proof. intros V zero hubs par m vs H. destruct (history_size V zero hubs par m vs H) as [_ [_ R]]. exact R. Qed.
Print Assumptions C14_memory_large_enough.

(** The hub of the parameters has buffer type 0. *)
Lemma parameter_hub layers hubs lay kp sl : wf_layers layers -> create_layout layers = LOk (hubs, lay) ->
  (forall l p st, In l layers -> In (p, st) (l_params l) -> ls_btype st = 0) ->
  dget "parameters" lay = Some (kp, sl) -> fst sl < snd sl ->
  exists h, nth_error hubs kp = Some h /\ h_btype h = 0 /\ snd sl <= h_size h.
Proof.
  intros W L Hb D Hsl. destruct (C12_concatenation layers hubs lay kp sl W L D) as [Cells [_ Sz]].
  destruct (proj1 (Cells (snd sl - 1)) ltac:(lia)) as [l [p [slp [Hl [Hp [Dp Hpos]]]]]].
  assert (Hp' : In p (map fst (arrays_of l "parameters"))) by exact Hp.
  destruct (arrays_cat l "parameters" p Hp') as [Ho [d [Hd Hpd]]].
  destruct (owned_source layers W hubs lay L l "parameters" d p Hl Hd Hpd Ho) as [k [h [i [st [D' [Hk [Hi [Hst [Hoff [Hsz [Hbt _]]]]]]]]]]].
  rewrite D' in Dp. injection Dp as -> <-. exists h. split; [assumption|]. split.
  - rewrite <- Hbt. apply in_map_iff in Hp. destruct Hp as [[p' st'] [E Hin]]. simpl in E. subst p'.
    assert (X : dget (path3 (l_name l) "parameters" p) (stub layers) = Some st').
    { apply In_dget; [now apply stub_NoDup|]. apply stub_In. exists l, "parameters", (l_params l), p. simpl. tauto. }
    rewrite X in Hst. injection Hst as <-. now apply (Hb l p).
  - simpl in Hpos. lia.
Qed.

(** C14: [par_cell] is where the views of the layout put the parameters. *)
Theorem C14_parameter_view : forall (V : Type) layers hubs lay kp sl,
  wf_layers layers -> create_layout layers = LOk (hubs, lay) ->
  (forall l p st, In l layers -> In (p, st) (l_params l) -> ls_btype st = 0) ->
  dget "parameters" lay = Some (kp, sl) -> fst sl < snd sl ->
  forall (m : manager V) T B, bm_hubs V m = hubs -> bm_par V m = (kp, sl) ->
  exists a, array_view layers hubs lay T B "parameters" = Some a /\ a_shape a = [par_len V m] /\
    (forall i, address a [i] = par_cell V m (T, B) + i) /\
    par_cell V m (T, B) + par_len V m <= total_size hubs T B.
Proof.
  intros V layers hubs lay kp sl W L Hb D Hsl m T B Eh Ep.
  destruct (parameter_hub layers hubs lay kp sl W L Hb D Hsl) as [h [Hk [Hbt Hs]]].
  assert (St : struct_at layers "parameters" sl = Some (mkStruct 0 [snd sl - fst sl] 0 false)) by reflexivity.
  assert (V' : create_from_buffer_hub (mkStruct 0 [snd sl - fst sl] 0 false) (hub_buffer hubs T B kp h) T h (fst sl) (snd sl)
     = Some (split_last [snd sl - fst sl] (slice 0 (fst sl) (snd sl) (hub_buffer hubs T B kp h)))).
  { unfold create_from_buffer_hub. replace (ls_size _) with (snd sl - fst sl) by (unfold ls_size; simpl; lia). now rewrite Nat.eqb_refl. }
  eexists. split; [unfold array_view; rewrite D, Hk, St; exact V'|].
  destruct (view_spec hubs T B kp h (mkStruct 0 [snd sl - fst sl] 0 false) (fst sl) (snd sl) _ (eq_sym Hbt) ltac:(simpl; lia) V') as [_ [Sh A]].
  split; [unfold par_len; rewrite Ep; exact Sh|]. split.
  - intros i. assert (E := A [] [i] eq_refl). cbn [app] in E. rewrite E. unfold par_cell, ravel, lead_row. rewrite Ep, Eh, Hbt. cbn [ls_feat c_dims dot_strides fst snd prod fold_right]. lia.
  - unfold par_cell, par_len. rewrite Ep, Eh. cbn [fst snd].
    assert (R := hub_range hubs kp h T B 0 (snd sl - 1) Hk). unfold hub_rows in R. rewrite Hbt in R.
    specialize (R ltac:(lia) ltac:(lia)). assert (Q := base_total hubs T B (S kp)). lia.
Qed.
Print Assumptions C14_parameter_view.

(** C14: the other buffers are outside the parameters, i.e. the passes and
    steppers that write outputs, internals, deltas and gradients are covered by
    the step "other memory". *)
Theorem C14_other_buffers : forall (V : Type) layers hubs lay kp sl,
  wf_layers layers -> create_layout layers = LOk (hubs, lay) ->
  (forall l p st, In l layers -> In (p, st) (l_params l) -> ls_btype st = 0) ->
  dget "parameters" lay = Some (kp, sl) ->
  forall (m : manager V) T B, bm_hubs V m = hubs -> bm_par V m = (kp, sl) ->
  forall l c x a idx, In l layers -> In x (map fst (arrays_of l c)) -> c <> "parameters" ->
  array_view layers hubs lay T B (path3 (l_name l) c x) = Some a -> in_range a idx ->
  ~ (par_cell V m (T, B) <= address a idx < par_cell V m (T, B) + par_len V m).
Proof.
  intros V layers hubs lay kp sl W L Hb D m T B Eh Ep l c x a idx Hl Hx Nc Va R [H1 H2].
  unfold par_cell, par_len in *. rewrite Ep, Eh in *. cbn [fst snd] in *.
  assert (Hsl : fst sl < snd sl) by lia.
  destruct (parameter_hub layers hubs lay kp sl W L Hb D Hsl) as [h [Hk [Hbt Hs]]].
  destruct (C12_concatenation layers hubs lay kp sl W L D) as [Cells [_ _]].
  set (pos := address a idx - hub_base hubs T B kp).
  destruct (proj1 (Cells pos) ltac:(unfold pos; lia)) as [l' [p [slp [Hl' [Hp [Dp Hpos]]]]]].
  assert (Hp' : In p (map fst (arrays_of l' "parameters"))) by exact Hp.
  destruct (C15_views_exist layers hubs lay W L l' "parameters" p T B Hl' Hp') as [a' [st [Va' [Hst Sh]]]].
  destruct (arrays_cat l' "parameters" p Hp') as [Ho [d [Hd Hpd]]].
  destruct (owned_source layers W hubs lay L l' "parameters" d p Hl' Hd Hpd Ho) as [k [h' [i [st' [D' [Hk' [_ [Hst' [Hoff [Hsz [Hbt' Hc']]]]]]]]]]].
  rewrite Hst in Hst'. injection Hst' as <-. rewrite D' in Dp. injection Dp as -> <-. rewrite Hk in Hk'. injection Hk' as <-.
  cbn [fst snd] in Hpos.
  assert (Va'' := Va'). unfold array_view in Va''. rewrite D', Hk in Va''. unfold struct_at in Va''.
  rewrite (not_root layers W l' "parameters" d p Hl' Hd Hpd), Hst in Va''. cbn [fst snd] in Va''.
  destruct (view_spec _ _ _ _ _ _ _ _ _ Hbt' Hc' Va'') as [_ [Sh' A]].
  (* the index of the parameter entry *)
  assert (Ex : exists f, Forall2 lt f (ls_feat st) /\ ravel (ls_feat st) f = pos - offset (h_sizes h) i).
  { assert (In (pos - offset (h_sizes h) i) (seq 0 (prod (ls_feat st)))).
    { apply in_seq. unfold ls_size in Hoff. fold (prod (ls_feat st)) in Hoff. lia. }
    rewrite <- (ravel_all (ls_feat st) 0) in H. apply in_map_iff in H. destruct H as [f [E Hf]]. exists f. split; [now apply all_indices_spec | exact E]. }
  destruct Ex as [f [Rf Ef]].
  assert (Ls : lead_shape st T B = []) by (unfold lead_shape; rewrite Hbt', Hbt; reflexivity).
  assert (R' : in_range a' f) by (unfold in_range; rewrite Sh', Ls; exact Rf).
  assert (E : address a' f = address a idx).
  { assert (Q := A [] f). rewrite Ls in Q. specialize (Q eq_refl). cbn [app] in Q. rewrite Q, Ef. unfold lead_row. rewrite Hbt. unfold pos in *. lia. }
  apply (C15_disjoint layers hubs lay W L l' "parameters" p l c x T B a' a f idx Hl' Hp' Hl Hx Va' Va R' R); [congruence | exact E].
Qed.
Print Assumptions C14_other_buffers.

(** The example network: write the 25 parameters, resize twice (the first time
    new memory is needed), change the handler. *)
Example C14_example :
  match create_layout ex_layers with
  | LOk (hubs, lay) =>
      let par := (0, (0, 25)) in
      let junk := fun a => 1000 + a in
      let vs := seq 100 25 in
      let m0 := new_manager nat 0 hubs par junk in
      let m := resize nat 0 (set_handler nat 0 (resize nat 0 (resize nat 0 (write_parameters nat 0 m0 vs) 7 3 junk) 2 5 junk) junk) 4 4 junk in
      dget "parameters" lay = Some par /\ read_parameters nat m = Some vs /\ history nat 0 hubs par m vs
  | LErr _ => False
  end.
Proof.
  destruct (create_layout ex_layers) as [[hubs lay]|] eqn:E; [|exfalso; vm_compute in E; discriminate E].
  cbv zeta. set (junk := fun a => 1000 + a). set (par := (0, (0, 25))).
  assert (D : dget "parameters" lay = Some par) by (vm_compute in E; injection E as _ <-; reflexivity). clear E.
  set (m0 := new_manager nat 0 hubs par junk).
  assert (Hv : exists v0, read_parameters nat m0 = Some v0).
  { unfold read_parameters. destruct (bm_views nat m0) eqn:Ev; [eauto|]. exfalso. revert Ev. apply (resize_views nat 0). now right. }
  destruct Hv as [v0 Hv].
  assert (Hl : length (seq 100 25) = par_len nat m0).
  { destruct (history_size nat 0 hubs par m0 v0 (history_new _ _ _ _ _ _ Hv)) as [_ [Ep _]]. unfold par_len. rewrite Ep. reflexivity. }
  set (vs := seq 100 25) in *. clearbody vs.
  pose proof (history_new nat 0 hubs par junk v0 Hv) as H0. fold m0 in H0. clearbody m0.
  pose proof (history_step _ _ _ _ _ _ _ _ H0 (step_write nat 0 _ vs Hl)) as H1. cbv iota in H1.
  pose proof (history_step _ _ _ _ _ _ _ _ H1 (step_resize nat 0 _ 7 3 junk)) as H2. cbv iota in H2.
  pose proof (history_step _ _ _ _ _ _ _ _ H2 (step_resize nat 0 _ 2 5 junk)) as H3. cbv iota in H3.
  pose proof (history_step _ _ _ _ _ _ _ _ H3 (step_handler nat 0 _ junk)) as H4. cbv iota in H4.
  pose proof (history_step _ _ _ _ _ _ _ _ H4 (step_resize nat 0 _ 4 4 junk)) as H5. cbv iota in H5.
  split; [exact D|]. split; [exact (C14_parameters_survive _ _ _ _ _ _ H5) | exact H5].
Qed.

(** ** C17 *)
(** A forward pass: first the context is cleared or applied
    (network.py:425-428), then the layers other than Input write their outputs
    and internals. *)
Definition written_by_layers (layers : list layer) (hubs : list hub) (lay : slices) (T B : nat) (input : string) (A : nat) : Prop :=
  exists l c x a idx, In l layers /\ l_name l <> input /\ In c ["outputs"; "internals"] /\ In x (map fst (arrays_of l c)) /\
    array_view layers hubs lay T B (path3 (l_name l) c x) = Some a /\ in_range a idx /\ address a idx = A.
Definition do_writes {V} (ws : list (nat * V)) (m : memory V) : memory V :=
  fold_left (fun m w => upd V m (fst w) (snd w)) ws m.

Lemma writes_unchanged (V : Type) layers hubs lay : wf_layers layers -> create_layout layers = LOk (hubs, lay) ->
  forall l x T B a idx ws (m : memory V), In l layers -> In x (map fst (l_out l)) ->
  array_view layers hubs lay T B (path3 (l_name l) "outputs" x) = Some a -> in_range a idx ->
  (forall w, In w ws -> written_by_layers layers hubs lay T B (l_name l) (fst w)) ->
  do_writes ws m (address a idx) = m (address a idx).
Proof.
  intros W L l x T B a idx ws m Hl Hx Va R Hw. unfold do_writes. revert m. induction ws as [|w ws IH]; intros m; [reflexivity|].
  simpl. rewrite IH by (intros; apply Hw; now right).
  destruct (Hw w (or_introl eq_refl)) as [l' [c' [x' [a' [idx' [Hl' [N [_ [Hx' [Va' [R' <-]]]]]]]]]]].
  apply (C15_write V layers hubs lay W L l' c' x' l "outputs" x T B a' a idx' idx); try assumption. congruence.
Qed.

(** Which hub row a cell of an output is in. *)
Lemma output_cell layers hubs lay : wf_layers layers -> create_layout layers = LOk (hubs, lay) ->
  forall l x st T B a t b f, In l layers -> In x (map fst (l_out l)) ->
  dget (path3 (l_name l) "outputs" x) (stub layers) = Some st -> 2 <= ls_btype st ->
  array_view layers hubs lay T B (path3 (l_name l) "outputs" x) = Some a -> in_range a (t :: b :: f) ->
  exists k sl h row g, dget (path3 (l_name l) "outputs" x) lay = Some (k, sl) /\ nth_error hubs k = Some h /\
    h_btype h = ls_btype st /\ row = t * B + b /\ b < B /\ row < hub_rows h T B /\ g < h_size h /\
    address a (t :: b :: f) = hub_base hubs T B k + row * h_size h + g.
Proof.
  intros W L l x st T B a t b f Hl Hx Hst Hbt Va R.
  assert (Hx' : In x (map fst (arrays_of l "outputs"))) by exact Hx.
  destruct (arrays_cat l "outputs" x Hx') as [Ho [d [Hd Hxd]]].
  destruct (owned_source layers W hubs lay L l "outputs" d x Hl Hd Hxd Ho) as [k [h [i [st' [D [Hk [_ [Hst' [Hoff [Hsz [Hb Hc]]]]]]]]]]].
  rewrite Hst in Hst'. injection Hst' as <-.
  unfold array_view in Va. rewrite D, Hk in Va. unfold struct_at in Va. rewrite (not_root layers W l "outputs" d x Hl Hd Hxd), Hst in Va.
  cbn [fst snd] in Va. destruct (view_spec _ _ _ _ _ _ _ _ _ Hb Hc Va) as [E [Sh A]].
  assert (Ls : lead_shape st T B = [T + ls_ctx st; B]) by (unfold lead_shape; destruct (ls_btype st) as [|[|]]; [lia|lia|reflexivity]).
  destruct (in_range_split a _ _ _ Sh R) as [lead [fidx [El [R1 [R2 Hlen]]]]].
  assert (R1' := R1). rewrite Ls in R1, Hlen. destruct lead as [|t' [|b' [|]]]; try discriminate. injection El as <- <- ->.
  inversion R1 as [|? ? ? ? Ht R1b]; subst. inversion R1b as [|? ? ? ? Hb' _]; subst.
  assert (Lr := lead_row_lt h st T B [t; b] Hb Hc R1').
  assert (El : lead_row h B [t; b] = t * B + b) by (unfold lead_row; rewrite <- Hb; destruct (ls_btype st) as [|[|]]; [lia|lia|reflexivity]).
  rewrite El in Lr. assert (Lf := ravel_lt _ _ R2). unfold ls_size in Hoff. fold (prod (ls_feat st)) in Hoff.
  exists k, (offset (h_sizes h) i, offset (h_sizes h) (S i)), h, (t * B + b), (offset (h_sizes h) i + ravel (ls_feat st) fidx).
  split; [assumption|]. split; [assumption|]. split; [now symmetry|]. split; [reflexivity|]. split; [assumption|].
  split; [assumption|]. split; [lia|].
  assert (Q := A [t; b] fidx). rewrite Ls in Q. specialize (Q eq_refl). cbn [app] in Q. rewrite Q, El. reflexivity.
Qed.

(** C17 without context: the data in rows before T - context_size of its hub are
    unchanged by a forward pass; in particular all data, if no buffer with a
    context is in the same hub. *)
Theorem C17_no_context_partial : forall (V : Type) (zero : V) layers hubs lay,
  wf_layers layers -> create_layout layers = LOk (hubs, lay) ->
  forall input x st k sl h T B a t b f (m : memory V) ws,
  In input layers -> In x (map fst (l_out input)) ->
  dget (path3 (l_name input) "outputs" x) (stub layers) = Some st -> ls_btype st = 2 ->
  dget (path3 (l_name input) "outputs" x) lay = Some (k, sl) -> nth_error hubs k = Some h ->
  array_view layers hubs lay T B (path3 (l_name input) "outputs" x) = Some a -> in_range a (t :: b :: f) ->
  h_ctx h <= T -> h_ctx h = 0 \/ t < T - h_ctx h ->
  (forall w, In w ws -> written_by_layers layers hubs lay T B (l_name input) (fst w)) ->
  do_writes ws (clear_context V zero hubs T B m) (address a (t :: b :: f)) = m (address a (t :: b :: f)).
Proof.
  intros V zero layers hubs lay W L input x st k sl h T B a t b f m ws Hl Hx Hst Hbt D Hk Va R HT Hc Hw.
  rewrite (writes_unchanged V layers hubs lay W L input x T B a (t :: b :: f) ws _ Hl Hx Va R Hw).
  destruct (output_cell layers hubs lay W L input x st T B a t b f Hl Hx Hst ltac:(lia) Va R)
    as [k' [sl' [h' [row [g [D' [Hk' [Hb [Er [Hbb [Hr [Hg E]]]]]]]]]]]].
  rewrite D in D'. injection D' as <- <-. rewrite Hk in Hk'. injection Hk' as <-.
  rewrite E, (clear_context_spec V zero hubs T B k h row g Hk Hr Hg). destruct (has_context h) eqn:Ec; [|reflexivity].
  unfold has_context in Ec. apply andb_true_iff in Ec. destruct Ec as [_ Ec]. apply negb_true_iff, Nat.eqb_neq in Ec.
  destruct Hc as [Hc|Hc]; [contradiction|]. cbn [andb]. unfold py_start.
  replace (h_ctx h <=? T) with true by (symmetry; apply Nat.leb_le; lia).
  destruct (Nat.leb_spec ((T - h_ctx h) * B) row) as [Q|Q]; [|reflexivity]. exfalso. subst row. nia.
Qed.
Print Assumptions C17_no_context_partial.

(** C17 with a context (as returned by get_context for the same batch size): all
    rows of the data are unchanged by a forward pass. *)
Theorem C17_with_context : forall (V : Type) (zero : V) layers hubs lay,
  wf_layers layers -> create_layout layers = LOk (hubs, lay) ->
  forall input x st T B T' (m' : memory V) a t b f (m : memory V) ws,
  In input layers -> In x (map fst (l_out input)) ->
  dget (path3 (l_name input) "outputs" x) (stub layers) = Some st -> ls_btype st = 2 -> ls_ctx st = 0 ->
  array_view layers hubs lay T B (path3 (l_name input) "outputs" x) = Some a -> in_range a (t :: b :: f) ->
  (forall w, In w ws -> written_by_layers layers hubs lay T B (l_name input) (fst w)) ->
  do_writes ws (apply_context V zero hubs T B (get_context V hubs T' B m') m) (address a (t :: b :: f)) = m (address a (t :: b :: f)).
Proof.
  intros V zero layers hubs lay W L input x st T B T' m' a t b f m ws Hl Hx Hst Hbt Hctx Va R Hw.
  rewrite (writes_unchanged V layers hubs lay W L input x T B a (t :: b :: f) ws _ Hl Hx Va R Hw).
  assert (Ht : t < T).
  { destruct (C15_views_exist layers hubs lay W L input "outputs" x T B Hl Hx) as [a0 [st0 [V0 [S0 Sh]]]].
    rewrite Va in V0. injection V0 as <-. rewrite Hst in S0. injection S0 as <-. rewrite Hbt, Hctx in Sh.
    unfold in_range in R. rewrite Sh in R. inversion R; subst. lia. }
  destruct (output_cell layers hubs lay W L input x st T B a t b f Hl Hx Hst ltac:(lia) Va R)
    as [k [sl [h [row [g [D [Hk [Hb [Er [Hbb [Hr [Hg E]]]]]]]]]]]].
  rewrite E. apply (apply_context_spec V zero hubs T B k h row g Hk Hr Hg).
  - intros c k' h' Hin. unfold get_context in Hin.
    set (en := combine (seq 0 (length hubs)) hubs) in *. clearbody en.
    assert (X : exists kh, kh = (k', h') /\ (let (k, h) := kh in if has_context h then Some (read_block V m' (row_cell hubs T' B k (T' - h_ctx h) h) (h_ctx h * row_size B h)) else None) = Some c).
    { clear - Hin. induction en as [|[k0 h0] r IH]; [destruct Hin|]. simpl in Hin. destruct Hin as [[= H1 -> ->]|Hin].
      - exists (k', h'). split; [reflexivity | exact H1].
      - now apply IH. }
    destruct X as [kh [-> X]]. destruct (has_context h') eqn:Ec; [|discriminate]. injection X as <-.
    rewrite read_block_length. split; [reflexivity|]. unfold has_context in Ec. apply andb_true_iff in Ec. destruct Ec as [Ec _]. now apply Nat.eqb_eq.
  - intros _. subst row. nia.
Qed.
Print Assumptions C17_with_context.

(** C17 is false without context when a recurrent output shares a consumer with
    the input: the last time step of the data is set to zero. *)
Definition ex_skip : list layer :=
  [ mkLayer "Input" [] [("default", st2 1)] [] []
      [mkConn "Input" "default" "R" "default"; mkConn "Input" "default" "Out" "default"];
    mkLayer "R" [("default", st2 1)] [("default", st1 1)] [("W", st0 [1; 1]); ("R", st0 [1; 1]); ("bias", st0 [1])] []
      [mkConn "R" "default" "Out" "default"];
    mkLayer "Out" [("default", st2 2)] [("default", st2 2)] [] [] [] ].
Lemma ex_skip_wf : wf_layers ex_skip.
Proof.
  split.
  - repeat constructor; simpl; intuition discriminate.
  - intros l Hl. simpl in Hl. intuition subst; cmp.
  - intros l Hl. simpl in Hl. intuition subst; split; simpl; repeat constructor; simpl; try cmp; intuition discriminate.
  - intros l Hl. simpl in Hl. intuition subst; split; simpl; repeat constructor; simpl; try cmp; intuition discriminate.
  - intros l Hl. simpl in Hl. intuition subst; split; simpl; repeat constructor; simpl; try cmp; intuition discriminate.
  - intros l Hl. simpl in Hl. intuition subst; split; simpl; repeat constructor; simpl; try cmp; intuition discriminate.
  - intros l c [<-|[<-|[<-|[]]]] Hc; simpl in Hc; [| |destruct Hc].
    + destruct Hc as [<-|[<-|[]]]; (split; [reflexivity|]); (split;
        [ eexists; eexists; split; [apply out_output; cmp | simpl; tauto] |]).
      * exists (nth 1 ex_skip (mkLayer "" [] [] [] [] [])); simpl; tauto.
      * exists (nth 2 ex_skip (mkLayer "" [] [] [] [] [])); simpl; tauto.
    + destruct Hc as [<-|[]]; (split; [reflexivity|]); (split;
        [ eexists; eexists; split; [apply out_output; cmp | simpl; tauto] |]).
      exists (nth 2 ex_skip (mkLayer "" [] [] [] [] [])); simpl; tauto.
  - intros l c x st [<-|[<-|[<-|[]]]] Hc Ho Hx; simpl in Hx; contradiction.
Qed.
Theorem C17_clear_context_refuted :
  ~ (forall layers hubs lay, wf_layers layers -> create_layout layers = LOk (hubs, lay) ->
     forall input x T B a idx (m : memory nat), In input layers -> l_name input = "Input" -> In x (map fst (l_out input)) ->
     array_view layers hubs lay T B (path3 "Input" "outputs" x) = Some a -> in_range a idx ->
     clear_context nat 0 hubs T B m (address a idx) = m (address a idx)).
Proof.
  intros H. destruct (create_layout ex_skip) as [[hubs lay]|] eqn:E; [|exfalso; vm_compute in E; discriminate E].
  specialize (H ex_skip hubs lay ex_skip_wf E (nth 0 ex_skip (mkLayer "" [] [] [] [] [])) "default" 2 1).
  destruct (array_view ex_skip hubs lay 2 1 (path3 "Input" "outputs" "default")) as [a|] eqn:Va;
    [|vm_compute in E; injection E as <- <-; vm_compute in Va; discriminate].
  specialize (H a [1; 0; 0] (fun _ => 7) (or_introl eq_refl) eq_refl (or_introl eq_refl) eq_refl).
  vm_compute in E. injection E as <- <-. vm_compute in Va. injection Va as <-.
  assert (R : in_range (mkArr 3 [(2, 2); (1, 2); (1, 1)]) [1; 0; 0]) by (unfold in_range; cbn; repeat constructor).
  specialize (H R). vm_compute in H. discriminate H.
Qed.
Print Assumptions C17_clear_context_refuted.

(** The hypotheses of C17_no_context_partial hold e.g. for the example network,
    where Input is alone in its hub. *)
Example C17_example :
  match create_layout ex_layers with
  | LOk (hubs, lay) =>
      exists k sl h a, dget "Input.outputs.default" lay = Some (k, sl) /\ nth_error hubs k = Some h /\ h_ctx h = 0 /\
        array_view ex_layers hubs lay 3 2 "Input.outputs.default" = Some a /\ in_range a [2; 1; 3]
  | LErr _ => False
  end.
Proof. vm_compute. do 4 eexists. repeat split; repeat constructor. Qed.
