(** C72: when a network has a memory layout. *)
From Coq Require Import String Ascii List ZArith QArith Bool Lia Permutation.
From Verif Require Import HubModel HubProofs LayoutModel LayoutProofs LayoutProps.
From Verif Require Import PyBase PyFacts UtilsModel UtilsProofs NamesModel ArchModel ArchProofs ShapesModel ShapesProofs SetupModel PassShapesModel SetupProofs PassShapesProofs SetupProps InstanceProofs InstanceProps NetLayoutExtra NetLayoutProofs NetLayoutProps NetSizesProofs LayoutExist LayoutExistProofs LayoutNet.
Import ListNotations.
Open Scope string_scope.
Open Scope list_scope.
Open Scope nat_scope.

(** The layers of an architecture, all connections of which start at outputs, have a memory layout exactly if the outputs can be put side by side
    ([side_by_side] in LayoutNet.v: all outputs in an order in which the outputs connected to one input are neighbours). *)
Theorem C72_layout_iff : forall a layers, named a -> instantiate a = SOk layers -> starts_at_outputs layers ->
  ((exists hubs lay, create_layout (map layout_layer layers) = LOk (hubs, lay)) <-> exists order, side_by_side layers order).
Proof.
  intros a layers HN HI HO. split.
  - intros [hubs [lay H]]. destruct (arrangement_from_layout _ hubs lay (ne_wf a layers HN HI HO) (ne_from a layers HN HI HO) H) as [order A]. exists order. now apply (ne_arrangement a).
  - intros [order A]. apply (ne_arrangement a layers HN HI HO) in A. exact (layout_from_arrangement _ order (ne_wf a layers HN HI HO) (ne_from a layers HN HI HO) (ne_uniform a layers HN HI) A).
Qed.
Print Assumptions C72_layout_iff.

(** Otherwise the network is refused with the NetworkValidationError "Failed to lay out buffers" (layout.py:97), not with another exception. *)
Theorem C72_refused : forall a layers, named a -> instantiate a = SOk layers -> starts_at_outputs layers ->
  (create_layout (map layout_layer layers) = LErr EFailedLayout <-> forall order, ~ side_by_side layers order).
Proof.
  intros a layers HN HI HO. assert (X := C72_layout_iff a layers HN HI HO).
  destruct (layout_error _ (ne_wf a layers HN HI HO) (ne_from a layers HN HI HO) (ne_uniform a layers HN HI)) as [H|[H _]]; (split; [intros E order A|intros N; try assumption]).
  - destruct H as [hubs [lay H]]. congruence.
  - exfalso. apply X in H. destruct H as [order A]. exact (N order A).
  - destruct (proj2 X (ex_intro _ order A)) as [hubs [lay H']]. congruence.
Qed.
Print Assumptions C72_refused.

(** If every input has one source, there is a layout. *)
Theorem C72_single_sources : forall a layers, named a -> instantiate a = SOk layers -> starts_at_outputs layers ->
  (forall l n, In l layers -> In n (map fst (li_in l)) -> length (input_from l n) <= 1) ->
  exists hubs lay, create_layout (map layout_layer layers) = LOk (hubs, lay).
Proof.
  intros a layers HN HI HO H. apply (C72_layout_iff a layers HN HI HO). exists (net_outputs layers). split; [reflexivity|]. intros l n Hl Hn. specialize (H l n Hl Hn).
  assert (S : forall s, In s (input_from l n) -> In s (net_outputs layers)).
  { intros s Hs. apply in_map_iff in Hs. destruct Hs as [c [<- Hc]]. exact (ne_source a layers HN HI HO l n c Hl Hc). }
  destruct (input_from l n) as [|s [|s' r]].
  - now exists [], [], (net_outputs layers).
  - destruct (in_split s _ (S s (or_introl eq_refl))) as [b [e E]]. now exists b, [s], e.
  - cbn in H. lia.
Qed.
Print Assumptions C72_single_sources.

Lemma block_two (order : list (string * string)) before block after p q : NoDup order -> order = before ++ block ++ after -> Permutation block [p; q] ->
  exists i, (nth_error order i = Some p /\ nth_error order (S i) = Some q) \/ (nth_error order i = Some q /\ nth_error order (S i) = Some p).
Proof.
  intros ND -> P. apply Permutation_sym, Permutation_length_2_inv in P. exists (length before).
  destruct P as [-> | ->]; [left|right]; (split; rewrite nth_error_app2 by lia; [now rewrite Nat.sub_diag|now replace (S (length before) - length before) with 1 by lia]).
Qed.
(** Three outputs each two of which go to a common input (that has no other sources) cannot be laid out. *)
Theorem C72_triangle : forall a layers p q r l1 l2 l3 n1 n2 n3, named a -> instantiate a = SOk layers -> starts_at_outputs layers ->
  p <> q -> q <> r -> p <> r -> In l1 layers -> In l2 layers -> In l3 layers ->
  In n1 (map fst (li_in l1)) -> In n2 (map fst (li_in l2)) -> In n3 (map fst (li_in l3)) ->
  Permutation (input_from l1 n1) [p; q] -> Permutation (input_from l2 n2) [q; r] -> Permutation (input_from l3 n3) [p; r] ->
  create_layout (map layout_layer layers) = LErr EFailedLayout.
Proof.
  intros a layers p q r l1 l2 l3 n1 n2 n3 HN HI HO D1 D2 D3 L1 L2 L3 N1 N2 N3 P1 P2 P3. apply (C72_refused a layers HN HI HO). intros order [P A].
  assert (ND : NoDup order). { eapply Permutation_NoDup; [apply Permutation_sym; exact P|]. rewrite <- (ne_outputs layers). exact (outputs_NoDup _ (ne_wf a layers HN HI HO)). }
  destruct (A l1 n1 L1 N1) as [b1 [c1 [e1 [E1 Q1]]]]. destruct (A l2 n2 L2 N2) as [b2 [c2 [e2 [E2 Q2]]]]. destruct (A l3 n3 L3 N3) as [b3 [c3 [e3 [E3 Q3]]]].
  destruct (block_two order b1 c1 e1 p q ND E1 (Permutation_trans Q1 P1)) as [i X]. destruct (block_two order b2 c2 e2 q r ND E2 (Permutation_trans Q2 P2)) as [j Y].
  destruct (block_two order b3 c3 e3 p r ND E3 (Permutation_trans Q3 P3)) as [k Z].
  assert (U : forall i j s, nth_error order i = Some s -> nth_error order j = Some s -> i = j).
  { intros i' j' s H1 H2. apply (proj1 (NoDup_nth_error order) ND); [apply nth_error_Some; congruence|congruence]. }
  destruct X as [[X1 X2]|[X1 X2]], Y as [[Y1 Y2]|[Y1 Y2]], Z as [[Z1 Z2]|[Z1 Z2]];
  repeat match goal with H1 : nth_error order ?u = Some ?s, H2 : nth_error order ?v = Some ?s |- _ => let E := fresh in assert (E := U u v s H1 H2); clear H2 end;
  try lia; congruence.
Qed.
Print Assumptions C72_triangle.

(** ** Concrete cases *)
Definition starts_b (layers : list linst) : bool := forallb (fun l => forallb (fun c => smem (c_out c) (map fst (li_out l))) (li_outgoing l)) layers.
Lemma starts_b_ok layers : starts_b layers = true -> starts_at_outputs layers.
Proof. unfold starts_b. intros H l c Hl Hc. rewrite forallb_forall in H. specialize (H l Hl). rewrite forallb_forall in H. apply smem_In. now apply H. Qed.
(** Each two of A, B, C go to a layer together: X gets A and B, Y gets B and C, and with [third] Z gets A and C. *)
Definition pairs_net (third : bool) : karch :=
  [entry "Input" "Input" [("default", ["A"; "B"; "C"])] [("out_shapes", KDict [("default", tb_shape [4%Z])])];
   entry "A" "FullyConnected" [("default", ["X"; "Z"])] [("size", KInt 2)];
   entry "B" "FullyConnected" [("default", ["X"; "Y"])] [("size", KInt 3)];
   entry "C" "FullyConnected" [("default", if third then ["Y"; "Z"] else ["Y"])] [("size", KInt 1)];
   entry "X" "FullyConnected" [("default", [])] [("size", KInt 2)];
   entry "Y" "FullyConnected" [("default", [])] [("size", KInt 2)];
   entry "Z" "FullyConnected" [("default", [])] [("size", KInt 2)]].
Lemma pairs_named third : named (pairs_net third).
Proof.
  constructor; [apply nodup_b_ok; reflexivity|]. intros n r kw H E. cbn [In pairs_net entry] in H.
  destruct H as [H|[H|[H|[H|[H|[H|[H|[]]]]]]]]; injection H as <- <- <-; try discriminate E; apply names_b_ok; reflexivity.
Qed.
(** All inputs with their sources *)
Definition wiring (layers : list linst) : list (string * string * list (string * string)) :=
  flat_map (fun l => map (fun n => (li_name l, n, input_from l n)) (map fst (li_in l))) layers.
Lemma In_wiring layers x n s : In (x, n, s) (wiring layers) -> exists l, In l layers /\ li_name l = x /\ In n (map fst (li_in l)) /\ input_from l n = s.
Proof. intros H. apply in_flat_map in H. destruct H as [l [Hl H]]. apply in_map_iff in H. destruct H as [m [E Hm]]. injection E as <- <- <-. now exists l. Qed.
Lemma wiring_In layers l n : In l layers -> In n (map fst (li_in l)) -> In (li_name l, n, input_from l n) (wiring layers).
Proof. intros Hl Hn. apply in_flat_map. exists l. split; [exact Hl|]. now apply (in_map (fun n => (li_name l, n, input_from l n))). Qed.
Definition pairs_wiring (third : bool) : list (string * string * list (string * string)) :=
  [("A", "default", [("Input", "default")]); ("B", "default", [("Input", "default")]); ("C", "default", [("Input", "default")]);
   ("X", "default", [("A", "default"); ("B", "default")]); ("Y", "default", [("B", "default"); ("C", "default")]);
   ("Z", "default", ("A", "default") :: if third then [("C", "default")] else [])].
Lemma pairs_layers third : instantiate (pairs_net third) = SOk (layers_of (pairs_net third)) /\ starts_at_outputs (layers_of (pairs_net third)) /\
  wiring (layers_of (pairs_net third)) = pairs_wiring third /\
  net_outputs (layers_of (pairs_net third)) = map (fun n => (n, "default")) ["Input"; "A"; "B"; "C"; "X"; "Y"; "Z"].
Proof. destruct third; (split; [vm_compute; reflexivity|]); (split; [apply starts_b_ok; vm_compute; reflexivity|]); (split; vm_compute; reflexivity). Qed.
Example C72_triangle_ex : create_layout (map layout_layer (layers_of (pairs_net true))) = LErr EFailedLayout.
Proof.
  destruct (pairs_layers true) as [HI [HO [HW _]]]. revert HI HO HW. generalize (layers_of (pairs_net true)). intros layers HI HO HW.
  assert (F : forall x s, In (x, "default", s) (pairs_wiring true) -> exists l, In l layers /\ In "default" (map fst (li_in l)) /\ Permutation (input_from l "default") s).
  { intros x s H. rewrite <- HW in H. apply In_wiring in H. destruct H as [l [H1 [_ [H2 <-]]]]. exists l. split; [exact H1|]. split; [exact H2|apply Permutation_refl]. }
  destruct (F "X" [("A", "default"); ("B", "default")]) as [l1 [H1 [I1 P1]]]; [cbn; tauto|].
  destruct (F "Y" [("B", "default"); ("C", "default")]) as [l2 [H2 [I2 P2]]]; [cbn; tauto|].
  destruct (F "Z" [("A", "default"); ("C", "default")]) as [l3 [H3 [I3 P3]]]; [cbn; tauto|].
  refine (C72_triangle (pairs_net true) layers ("A", "default") ("B", "default") ("C", "default") l1 l2 l3 "default" "default" "default"
    (pairs_named true) HI HO _ _ _ H1 H2 H3 I1 I2 I3 P1 P2 P3); discriminate.
Qed.
(** Without the third connection there is a layout; A, B and C lie side by side. *)
Example C72_layout_ex : exists hubs lay, create_layout (map layout_layer (layers_of (pairs_net false))) = LOk (hubs, lay).
Proof.
  destruct (pairs_layers false) as [HI [HO [HW HU]]]. revert HI HO HW HU. generalize (layers_of (pairs_net false)). intros layers HI HO HW HU. apply (C72_layout_iff (pairs_net false)); [apply pairs_named|exact HI|exact HO|].
  exists (net_outputs layers). split; [reflexivity|]. intros l n Hl Hn. assert (X := wiring_In _ l n Hl Hn). rewrite HW in X. rewrite HU. clear HI HO HW HU.
  cbn [pairs_wiring In] in X. revert X. generalize (li_name l) (input_from l n). intros x s X. cbn [map].
  assert (Y : s = [("Input", "default")] \/ s = [("A", "default"); ("B", "default")] \/ s = [("B", "default"); ("C", "default")] \/ s = [("A", "default")]).
  { repeat (destruct X as [X|X]; [apply (f_equal snd) in X; cbn [snd] in X; rewrite <- X; tauto|]). destruct X. }
  destruct Y as [-> | [-> | [-> | ->]]].
  - now exists [], [("Input", "default")], [("A", "default"); ("B", "default"); ("C", "default"); ("X", "default"); ("Y", "default"); ("Z", "default")].
  - now exists [("Input", "default")], [("A", "default"); ("B", "default")], [("C", "default"); ("X", "default"); ("Y", "default"); ("Z", "default")].
  - now exists [("Input", "default"); ("A", "default")], [("B", "default"); ("C", "default")], [("X", "default"); ("Y", "default"); ("Z", "default")].
  - now exists [("Input", "default")], [("A", "default")], [("B", "default"); ("C", "default"); ("X", "default"); ("Y", "default"); ("Z", "default")].
Qed.
