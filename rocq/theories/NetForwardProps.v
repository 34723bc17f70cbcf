(** C66, forward pass: in the memory of a network created from an architecture, the outputs of
    every layer are the values its forward pass gives for its parameters and inputs, each under its name. *)
From Coq Require Import String Ascii List ZArith QArith Reals Bool Lia Arith.
From Verif Require Import NumBase NumpyModel LayersModel RecurrentModel ClockLstmModel ConvModel ConvBase NetworkModel NetworkProps NetLayersModel NetLayersProps MemoryPassModel MemoryPassProofs.
From Verif Require Import HubModel LayoutModel BuffersModel.
From Verif Require Import PyBase PyFacts UtilsModel NamesModel ArchModel ShapesModel SetupModel SetupProps InstanceProofs InstanceProps NetLayoutProofs NetLayoutProps CellsProofs NetMemoryModel NetSizesProofs NetPartsProofs NetMemoryProofs NetForwardProofs NetMemoryProps.
Import ListNotations.
Open Scope string_scope.
Open Scope list_scope.
Open Scope nat_scope.

(** The equation of a layer; [arr category name] are the elements of a buffer in row-major order. *)
Definition equation (e : env) (T B : nat) (l : linst) (arr : string -> string -> vec) : Prop :=
  let rows := S T * B in
  let a := the_act l in
  let x := nf (li_in l) "default" in
  let y := nf (li_out l) "default" in
  let number v := number v in
  let inp := arr "inputs" in
  let par := arr "parameters" in
  let out := arr "outputs" "default" in
  let loss := arr "outputs" "loss" in
  let geo := geometry_of l in
  let lstm := mkPar (mat_of x (par "Wz")) (mat_of x (par "Wi")) (mat_of x (par "Wf")) (mat_of x (par "Wo")) (par "pi") (par "pf") (par "po")
                    (mat_of y (par "Rz")) (mat_of y (par "Ri")) (mat_of y (par "Rf")) (mat_of y (par "Ro")) (par "bz") (par "bi") (par "bf") (par "bo") in
  match li_cls l with
  | CFullyConnected => same rows y (mat_of y out) (fc_forward x a (mat_of x (par "W")) (par "bias") (mat_of x (inp "default")))
  | CElementwise => same rows x (mat_of x out) (elementwise_forward a (mat_of x (inp "default")))
  | CHighway => let n := nf (li_in l) "x" in same rows n (mat_of n out) (highway_forward (mat_of n (inp "H")) (mat_of n (inp "T")) (mat_of n (inp "x")))
  | CMerge => let n1 := nf (li_in l) "inputs_1" in let n2 := nf (li_in l) "inputs_2" in
      same (lead (li_in l) "inputs_1" (S T) B) (n1 + n2) (mat_of (n1 + n2) out) (merge_forward n1 (mat_of n1 (inp "inputs_1")) (mat_of n2 (inp "inputs_2")))
  | CMask => let k := nf (li_in l) "mask" in same rows x (mat_of x out) (mask_forward (k =? 1) (mat_of x (inp "default")) (mat_of k (inp "mask")))
  | CSquaredDifference => let n := nf (li_in l) "inputs_1" in same rows n (mat_of n out) (sqdiff_forward (mat_of n (inp "inputs_1")) (mat_of n (inp "inputs_2")))
  | CSquaredError => same rows x (mat_of x loss) (snd (sqerr_forward (mat_of x (inp "default")) (mat_of x (inp "targets"))))
  | CSigmoidCE => same rows x (mat_of x loss) (snd (sigmoid_ce_forward (mat_of x (inp "default")) (mat_of x (inp "targets"))))
  | CSoftmaxCE => same1 rows loss (snd (softmax_ce_forward (x - 1) (mat_of x (inp "default")) (fun i => class_of (x - 1) (inp "targets" i))))
  | CBinomialCE => same1 rows out (binomial_forward x (mat_of x (inp "default")) (mat_of x (inp "targets")))
  | CBatchNorm => same rows x (mat_of x out)
      (bn_out (bn_forward true rows (number (cf_scalar (li_cfg l))) (number (cf_epsilon (li_cfg l))) (par "gamma") (par "beta") none none none (mat_of x (inp "default"))))
  | CRecurrent => forall t, t < S T -> same B y (seq_of B y out t) (rec_forward a x y (S T) (mat_of x (par "W")) (mat_of y (par "R")) (par "bias") (seq_of B x (inp "default")) (e_ctx e (li_name l)) t)
  | CClockwork => forall t, t < S T -> same B y (seq_of B y out t) (cw_forward a x y (par "timing") (S T) (mat_of x (par "W")) (mat_of y (par "R")) (par "bias") (seq_of B x (inp "default")) (e_ctx e (li_name l)) t)
  | CLstm => forall t, t < S T -> same B y (seq_of B y out t) (lstm_y a x y (S T) lstm (seq_of B x (inp "default")) zeros zeros t)
  | CClockworkLstm => forall t, t < S T -> same B y (seq_of B y out t) (cl_y a x y (par "timing") (S T) lstm (seq_of B x (inp "default")) zeros zeros t)
  | CLoss => loss 0 = loss_forward (lead (li_in l) "default" (S T) B) x (number (cf_scalar (li_cfg l))) (loss_batch l B) (mat_of x (inp "default"))
  | CDropout => same rows x (mat_of x out) (dropout_forward true (number (cf_scalar (li_cfg l))) (e_drop e (li_name l)) (mat_of x (inp "default")))
  | CL1Decay => same1 rows loss (l1_forward x (mat_of x (inp "default")))
  | CL2Decay => same1 rows loss (l2_forward x (mat_of x (inp "default")))
  | CConv => let f := last (dims (li_out l) "default") 0 in let pixels := g_oh geo * g_ow geo in
      forall i, i < rows -> same pixels f (seq_of pixels f out i)
        (conv_forward (g_h geo) (g_w geo) (g_c geo) (g_kh geo) (g_kw geo) (g_pad geo) (g_sh geo) (g_sw geo) a (mat_of (g_kernel geo) (par "W")) (par "bias") (mat_of (g_cells geo) (inp "default") i))
  | CPool => let n := g_oh geo * g_ow geo * g_c geo in
      same rows n (mat_of n out) (fun i => of_out geo (if cf_max (li_cfg l)
        then fun p q c => fst (max_of (e_precision e) (e_min e) geo (mat_of (g_cells geo) (inp "default") i) p q c)
        else avg_of geo (mat_of (g_cells geo) (inp "default") i)))
  | CNoOp => same rows x (mat_of x out) (mat_of x (inp "default"))
  | CInput | CDeltasScaling => True
  end.

Lemma shift_read A C m k : length A = k -> shift k (read (A ++ C) m) = read C m.
Proof. intros <-. apply read_app_right. Qed.
Lemma same_left r c A C m : length A = r * c -> same r c (mat_of c (read (A ++ C) m)) (mat_of c (read A m)).
Proof. intros E i j Hi Hj. unfold mat_of. apply read_app_left. rewrite E. nia. Qed.
Lemma same1_left n A C m : length A = n -> same1 n (read (A ++ C) m) (read A m).
Proof. intros E j Hj. apply read_app_left. lia. Qed.
Lemma lstm_read nin n m A0 A1 A2 A3 A4 A5 A6 A7 A8 A9 A10 A11 A12 A13 A14 :
  length A0 = n * nin -> length A1 = n * nin -> length A2 = n * nin -> length A3 = n * nin -> length A4 = n -> length A5 = n -> length A6 = n ->
  length A7 = n * n -> length A8 = n * n -> length A9 = n * n -> length A10 = n * n -> length A11 = n -> length A12 = n -> length A13 = n -> length A14 = n ->
  par_same nin n (lstm_of nin n (read (A0 ++ A1 ++ A2 ++ A3 ++ A4 ++ A5 ++ A6 ++ A7 ++ A8 ++ A9 ++ A10 ++ A11 ++ A12 ++ A13 ++ A14 ++ []) m))
    (mkPar (mat_of nin (read A0 m)) (mat_of nin (read A1 m)) (mat_of nin (read A2 m)) (mat_of nin (read A3 m)) (read A4 m) (read A5 m) (read A6 m)
           (mat_of n (read A7 m)) (mat_of n (read A8 m)) (mat_of n (read A9 m)) (mat_of n (read A10 m)) (read A11 m) (read A12 m) (read A13 m) (read A14 m)).
Proof.
  intros H0 H1 H2 H3 H4 H5 H6 H7 H8 H9 H10 H11 H12 H13 H14. unfold lstm_of. cbv zeta.
  rewrite (shift_read A0) by assumption. rewrite (shift_read A1) by assumption. rewrite (shift_read A2) by assumption. rewrite (shift_read A3) by assumption.
  rewrite (shift_read A4) by assumption. rewrite (shift_read A5) by assumption. rewrite (shift_read A6) by assumption. rewrite (shift_read A7) by assumption.
  rewrite (shift_read A8) by assumption. rewrite (shift_read A9) by assumption. rewrite (shift_read A10) by assumption. rewrite (shift_read A11) by assumption.
  rewrite (shift_read A12) by assumption. rewrite (shift_read A13) by assumption.
  constructor; cbn [pWz pWi pWf pWo ppi ppf ppo pRz pRi pRf pRo pbz pbi pbf pbo]; first [apply same_left; assumption | apply same1_left; assumption].
Qed.
Lemma flat_seq B n (s : seq) t i j : i < B -> j < n -> vec_of n (flat B s) ((t * B + i) * n + j) = s t i j.
Proof. intros Hi Hj. unfold vec_of, flat. rewrite divL, modL by assumption. now rewrite divL, modL by assumption. Qed.

Lemma seq_at B n v t i j : seq_of B n v t i j = v ((t * B + i) * n + j).
Proof. reflexivity. Qed.

Lemma seq_lt T B n t i j : t < T -> i < B -> j < n -> (t * B + i) * n + j < T * B * n.
Proof. intros. assert (t * B + i < T * B) by nia. nia. Qed.

(** A layer whose outputs are what its forward pass gives for its parameters and inputs *)
Lemma equation_of_values : forall a layers hubs lay e T B after l,
  named a -> instantiate a = SOk layers -> create_layout (map layout_layer layers) = LOk (hubs, lay) -> nonnegative layers ->
  (forall l, In l (tl layers) -> supported l = true) -> differentiable layers = true -> In l (tl layers) ->
  let L := mlayer_of layers hubs lay e T B l in
  (forall k, k < length (m_out L) -> after (nth k (m_out L) 0) = k_fwd (m_kind L after) (read (m_par L) after) (read (m_in L) after) k) ->
  (forall k, k < length (m_loss L) -> after (nth k (m_loss L) 0) = k_loss (m_kind L after) (read (m_par L) after) (read (m_in L) after)) ->
  equation e T B l (fun cat x => read (cells layers hubs lay (S T) B l cat x) after).
Proof.
  intros a layers hubs lay e T B after l HN HI HL HZ HS HD Hl L VO VL. assert (Hl' := in_tl layers l Hl). unfold L in VO, VL. clear L.
  set (tg := read (cells_of layers hubs lay T B l "inputs" (const_names (li_cls l))) after) in *.
  set (tm := read (cells_of layers hubs lay T B l "parameters" ["timing"]) after) in *.
  destruct (net_sized a layers l e T B HI HZ Hl' (HS l Hl) tg tm) as [SI [SO [SP [SL _]]]].
  destruct (net_parts a layers l T B HI HZ Hl' (HS l Hl)) as [PN [PP PI]].
  assert (CT := fun cat names => cells_total a layers hubs lay HN HI HL HZ T B l cat names Hl').
  assert (C1 : forall cat n, length (cells layers hubs lay (S T) B l cat n) = sz (S T) B (buffers_of l cat) n).
  { intros cat n. assert (X := CT cat [n]). unfold cells_of, total in X. cbn [flat_map fold_right] in X. rewrite app_nil_r in X. lia. }
  assert (CP : Forall (fun e => length (cells layers hubs lay (S T) B l "parameters" (fst e)) = snd e) (par_parts l)) by (eapply Forall_impl; [|exact PP]; intros q Hq; rewrite C1; exact Hq).
  assert (CI : Forall (fun e => length (cells layers hubs lay (S T) B l "inputs" (fst e)) = snd e) (in_parts T B l)) by (eapply Forall_impl; [|exact PI]; intros q Hq; rewrite C1; exact Hq).
  cbn [mlayer_of m_out m_loss m_kind m_par m_in] in VO, VL. fold tg tm in VO, VL.
  (* the values of the output, by position *)
  assert (OUT : forall n k, out_names (li_cls l) = [n] -> k < n_out (kind_of e T B l tg tm) ->
    read (cells layers hubs lay (S T) B l "outputs" n) after k = k_fwd (kind_of e T B l tg tm) (read (cells_of layers hubs lay T B l "parameters" (par_names l)) after) (read (cells_of layers hubs lay T B l "inputs" (in_names (li_cls l))) after) k).
  { intros n k En Hk. assert (X := VO k). rewrite En in X. unfold cells_of at 1 2 in X. cbn [flat_map] in X. rewrite app_nil_r in X.
    assert (Ln : k < length (cells layers hubs lay (S T) B l "outputs" n)). { rewrite C1. rewrite En in SO. unfold total in SO. cbn [fold_right] in SO. change (buffers_of l "outputs") with (li_out l). lia. }
    rewrite read_at by exact Ln. exact (X Ln). }
  clear VO SI SO SP PP PI CT.
  unfold equation. cbv zeta. unfold kind_of in *. unfold par_parts, in_parts in *. unfold cells_of in *.
  destruct (li_cls l) eqn:Ec; try exact I; cbn [in_names const_names out_names loss_names n_out k_fwd k_loss flat_map] in *; try (rewrite PN in OUT by discriminate); cbn [map fst snd flat_map] in *;
    rewrite ?app_nil_r in *.
  all: try (match goal with |- same _ _ _ _ => intros i j Hi Hj; unfold mat_of at 1; rewrite (OUT _ _ eq_refl) by nia; unfold vec_of; rewrite divL, modL by assumption end).
  all: try (match goal with |- same1 _ _ _ => intros i Hi; rewrite (OUT _ _ eq_refl) by lia end).
  all: try reflexivity.
  all: lazymatch type of Ec with
  | _ = CBatchNorm => inversion_clear CP as [|? ? L1 CP']; inversion_clear CP' as [|? ? L2 _]; cbn [fst snd] in L1, L2; rewrite (shift_read _ _ _ _ L1);
      unfold bn_forward; cbn [bn_out]; now rewrite read_app_left by lia
  | _ = CFullyConnected => inversion_clear CP as [|? ? L1 CP']; cbn [fst snd] in L1; rewrite (shift_read _ _ _ _ L1); unfold fc_forward; f_equal; f_equal; apply dot_ext; [reflexivity|];
      intros k Hk; unfold trans; now apply (same_left (nf (li_out l) "default"))
  | _ = CHighway => inversion_clear CI as [|? ? L1 CI1]; inversion_clear CI1 as [|? ? L2 _]; cbn [fst snd] in L1, L2; rewrite (shift_read _ _ _ _ L1), (shift_read _ _ _ _ L2);
      unfold highway_forward; rewrite (same_left (S T * B) _ _ _ _ L1) by assumption; now rewrite (same_left (S T * B) _ _ _ _ L2) by assumption
  | _ = CMerge => inversion_clear CI as [|? ? L1 _]; cbn [fst snd] in L1; rewrite (shift_read _ _ _ _ L1); unfold merge_forward; destruct (Nat.ltb_spec j (nf (li_in l) "inputs_1")); [|reflexivity];
      apply (same_left (lead (li_in l) "inputs_1" (S T) B)); assumption
  | _ = CSquaredDifference => inversion_clear CI as [|? ? L1 _]; cbn [fst snd] in L1; rewrite (shift_read _ _ _ _ L1); unfold sqdiff_forward; now rewrite (same_left (S T * B) _ _ _ _ L1) by assumption
  | _ = CSoftmaxCE => unfold tg; cbn [flat_map]; rewrite app_nil_r; assert (E : S (nf (li_in l) "default" - 1) = nf (li_in l) "default") by (assert (X := HS l Hl); unfold supported in X; rewrite Ec in X; apply andb_true_iff in X; destruct X as [_ X]; apply negb_true_iff, Nat.eqb_neq in X; lia);
      rewrite E; reflexivity
  | _ = CLoss => unfold loss_names in VL, SL; unfold total in SL; cbn [flat_map fold_right length] in VL, SL; rewrite ?app_nil_r in VL; assert (Z0 : 0 < length (cells layers hubs lay (S T) B l "outputs" "loss")) by (rewrite C1; change (buffers_of l "outputs") with (li_out l); lia);
      rewrite read_at by exact Z0; exact (VL 0 Z0)
  | _ = CPool => destruct (cf_max (li_cfg l)); cbn [n_out k_fwd] in OUT; intros i j Hi Hj; unfold mat_of at 1; rewrite (OUT _ _ eq_refl) by nia; unfold vec_of; rewrite divL, modL by assumption; reflexivity
  | _ = CConv => inversion_clear CP as [|? ? L1 CP']; cbn [fst snd] in L1; intros i Hi r f Hr Hf; rewrite seq_at; rewrite (OUT _ _ eq_refl) by (apply seq_lt; assumption); rewrite flat_seq by assumption;
      unfold conv_of; rewrite (shift_read _ _ _ _ L1); unfold conv_forward; f_equal; f_equal; apply dot_ext; [reflexivity|];
      intros k Hk; unfold trans; now apply (same_left (last (dims (li_out l) "default") 0))
  | _ = CRecurrent => inversion_clear CP as [|? ? L1 CP1]; inversion_clear CP1 as [|? ? L2 CP2]; cbn [fst snd] in L1, L2; intros t Ht i j Hi Hj; rewrite seq_at; rewrite (OUT _ _ eq_refl) by (eapply Nat.lt_le_trans; [apply (seq_lt (S T) B (nf (li_out l) "default")); assumption|rewrite ?Nat.mul_assoc; reflexivity]); rewrite flat_seq by assumption;
      unfold rec_forward; destruct (Nat.ltb_spec t (S T)); [|lia]; rewrite (shift_read _ _ _ _ L1), (shift_read _ _ _ _ L2);
      apply rec_y_ext; [now apply same_left|now apply same_left|intros ? ?; reflexivity|assumption]
  | _ = CClockwork => inversion_clear CP as [|? ? L1 CP1]; inversion_clear CP1 as [|? ? L2 CP2]; cbn [fst snd] in L1, L2; intros t Ht i j Hi Hj; rewrite seq_at; rewrite (OUT _ _ eq_refl) by (eapply Nat.lt_le_trans; [apply (seq_lt (S T) B (nf (li_out l) "default")); assumption|rewrite ?Nat.mul_assoc; reflexivity]); rewrite flat_seq by assumption;
      unfold cw_forward; destruct (Nat.ltb_spec t (S T)); [|lia]; rewrite (shift_read _ _ _ _ L1), (shift_read _ _ _ _ L2); unfold tm; cbn [flat_map]; rewrite app_nil_r;
      apply cw_y_ext; [now apply same_left|now apply same_left|intros ? ?; reflexivity|assumption]
  | _ = CLstm => inversion_clear CP as [|? ? L0 CP0]; inversion_clear CP0 as [|? ? L1 CP1]; inversion_clear CP1 as [|? ? L2 CP2]; inversion_clear CP2 as [|? ? L3 CP3]; inversion_clear CP3 as [|? ? L4 CP4]; inversion_clear CP4 as [|? ? L5 CP5]; inversion_clear CP5 as [|? ? L6 CP6];
      inversion_clear CP6 as [|? ? L7 CP7]; inversion_clear CP7 as [|? ? L8 CP8]; inversion_clear CP8 as [|? ? L9 CP9]; inversion_clear CP9 as [|? ? L10 CP10]; inversion_clear CP10 as [|? ? L11 CP11]; inversion_clear CP11 as [|? ? L12 CP12]; inversion_clear CP12 as [|? ? L13 CP13]; inversion_clear CP13 as [|? ? L14 CP14];
      cbn [fst snd] in *; intros t Ht i j Hi Hj; rewrite seq_at; rewrite (OUT _ _ eq_refl) by (eapply Nat.lt_le_trans; [apply (seq_lt (S T) B (nf (li_out l) "default")); assumption|rewrite ?Nat.mul_assoc; reflexivity]); rewrite flat_seq by assumption;
      unfold lstm_y; destruct (Nat.ltb_spec t (S T)); [|lia];  apply lstm_state_ext; [|assumption]; match goal with |- par_same _ _ (lstm_of _ _ (read ?A _)) _ => rewrite <- (app_nil_r A) end; rewrite <- !app_assoc; apply lstm_read; assumption
  | _ = CClockworkLstm => inversion_clear CP as [|? ? L0 CP0]; inversion_clear CP0 as [|? ? L1 CP1]; inversion_clear CP1 as [|? ? L2 CP2]; inversion_clear CP2 as [|? ? L3 CP3]; inversion_clear CP3 as [|? ? L4 CP4]; inversion_clear CP4 as [|? ? L5 CP5]; inversion_clear CP5 as [|? ? L6 CP6];
      inversion_clear CP6 as [|? ? L7 CP7]; inversion_clear CP7 as [|? ? L8 CP8]; inversion_clear CP8 as [|? ? L9 CP9]; inversion_clear CP9 as [|? ? L10 CP10]; inversion_clear CP10 as [|? ? L11 CP11]; inversion_clear CP11 as [|? ? L12 CP12]; inversion_clear CP12 as [|? ? L13 CP13]; inversion_clear CP13 as [|? ? L14 CP14];
      cbn [fst snd] in *; intros t Ht i j Hi Hj; rewrite seq_at; rewrite (OUT _ _ eq_refl) by (eapply Nat.lt_le_trans; [apply (seq_lt (S T) B (nf (li_out l) "default")); assumption|rewrite ?Nat.mul_assoc; reflexivity]); rewrite flat_seq by assumption;
      unfold cl_y; destruct (Nat.ltb_spec t (S T)); [|lia]; unfold tm; cbn [flat_map]; rewrite app_nil_r; apply cl_state_ext; [|assumption]; match goal with |- par_same _ _ (lstm_of _ _ (read ?A _)) _ => rewrite <- (app_nil_r A) end; rewrite <- !app_assoc; apply lstm_read; assumption
  | _ => unfold tg; cbn [flat_map]; rewrite app_nil_r; reflexivity
  end.
Qed.

Theorem C66_forward : forall a layers hubs lay e T B m,
  named a -> instantiate a = SOk layers -> create_layout (map layout_layer layers) = LOk (hubs, lay) -> nonnegative layers ->
  (forall l, In l (tl layers) -> supported l = true) -> differentiable layers = true ->
  let after := net_forward_pass layers hubs lay e T B m in
  forall l, In l (tl layers) -> equation e T B l (fun cat x => read (cells layers hubs lay (S T) B l cat x) after).
Proof.
  intros a layers hubs lay e T B m HN HI HL HZ HS HD after l Hl.
  destruct (net_values a layers hubs lay HN HI HL HZ HS HD e T B m l Hl) as [VO VL]. exact (equation_of_values a layers hubs lay e T B after l HN HI HL HZ HS HD Hl VO VL).
Qed.
Print Assumptions C66_forward.

(** The network of C66_example with 3 time steps and 2 sequences.  The layer Out has the 3 outputs of
    FC1 and the 2 outputs of Lstm as inputs: its output for row i is their sum weighted by its W,
    plus its bias. *)
Example C66_forward_example : forall e m l,
  let layers := layers_of regression_net in
  let hubs := fst (layout_of regression_net) in
  let lay := snd (layout_of regression_net) in
  nth_error layers 3 = Some l ->
  let arr cat x := read (cells layers hubs lay 3 2 l cat x) (net_forward_pass layers hubs lay e 2 2 m) in
  li_name l = "Out" /\ map c_start (li_incoming l) = ["FC1"; "Lstm"] /\
  forall i, i < 6 -> (arr "outputs" "default" i =
    arr "inputs" "default" (i * 5)%nat * arr "parameters" "W" 0%nat + arr "inputs" "default" (i * 5 + 1)%nat * arr "parameters" "W" 1%nat +
    arr "inputs" "default" (i * 5 + 2)%nat * arr "parameters" "W" 2%nat + arr "inputs" "default" (i * 5 + 3)%nat * arr "parameters" "W" 3%nat +
    arr "inputs" "default" (i * 5 + 4)%nat * arr "parameters" "W" 4%nat + arr "parameters" "bias" 0%nat)%R.
Proof.
  intros e m l layers hubs lay Hl arr.
  assert (Fl : (li_name l, map c_start (li_incoming l), li_cls l, the_act l, nf (li_in l) "default", nf (li_out l) "default") = ("Out", ["FC1"; "Lstm"], CFullyConnected, Linear, 5, 1)).
  { revert Hl. unfold layers. intros Hl. assert (H : option_map (fun l => (li_name l, map c_start (li_incoming l), li_cls l, the_act l, nf (li_in l) "default", nf (li_out l) "default")) (nth_error (layers_of regression_net) 3) = Some ("Out", ["FC1"; "Lstm"], CFullyConnected, Linear, 5, 1)) by (vm_compute; reflexivity).
    rewrite Hl in H. cbn [option_map] in H. injection H as H1 H2 H3 H4 H5 H6. now rewrite H1, H2, H3, H4, H5, H6. }
  injection Fl as E1 E2 E3 E4 E5 E6. split; [exact E1|]. split; [exact E2|]. intros i Hi.
  destruct (C66_example e m) as [HN [HI [HL [HZ [HS [HD _]]]]]].
  assert (Ht : In l (tl layers)). { apply nth_error_In with (n := 2). rewrite <- Hl. let X := eval vm_compute in (layers_of regression_net) in change layers with X. reflexivity. }
  assert (F := C66_forward regression_net layers hubs lay e 2 2 m HN HI HL HZ HS HD l Ht). cbv zeta in F. unfold equation in F. rewrite E3 in F. cbv zeta in F. rewrite E4, E5, E6 in F.
  specialize (F i 0 Hi (le_n 1)). unfold fc_forward, mat_of, dot_mm, trans in F. cbv beta zeta in F. cbn [Rsum act_inplace act_f] in F.
  replace (i * 1 + 0) with i in F by lia. unfold arr. rewrite F. cbn [Nat.mul Nat.add]. rewrite Nat.add_0_r. ring.
Qed.
