(** The layers modelled in LayersModel, RecurrentModel, ClockLstmModel, ConvModel and
    PoolModel as layers of a network (NetworkModel): adapters that lay the buffers out in vectors.  Inputs that get no
    deltas (targets, masks) are constants of the layer; outputs without deltas
    (predictions) are left out. *)
From Coq Require Import Reals ZArith Arith List.
From Verif Require Import NumBase NumpyModel LayersModel RecurrentModel ClockLstmModel ConvModel PoolModel NetworkModel.
Import ListNotations.
Open Scope R_scope.

(** Row-major layout *)
Definition mat_of (n : nat) (v : vec) : mat := fun i j => v (i * n + j)%nat.
Definition vec_of (n : nat) (m : mat) : vec := fun k => m (k / n)%nat (k mod n)%nat.
Definition seq_of (B n : nat) (v : vec) : seq := fun t i j => mat_of n v (t * B + i)%nat j.
Definition shift (a : nat) (v : vec) : vec := fun k => v (a + k)%nat.
Definition cat (a : nat) (u v : vec) : vec := fun k => if (k <? a)%nat then u k else v (k - a)%nat.
Definition none : vec := fun _ => 0.
Definition zeros : mat := fun _ _ => 0.
(** Images: row, column, channel; (size of input, kernel, padding, strides) *)
Record geometry := mkGeo { g_h : nat; g_w : nat; g_c : nat; g_kh : nat; g_kw : nat; g_pad : nat; g_sh : nat; g_sw : nat }.
Definition g_cells (g : geometry) : nat := (g_h g * g_w g * g_c g)%nat.
Definition g_kernel (g : geometry) : nat := num_kernel_params (g_c g) (g_kh g) (g_kw g).
Definition g_oh (g : geometry) : nat := height_col (g_h g) (g_kh g) (g_pad g) (g_sh g).
Definition g_ow (g : geometry) : nat := width_col (g_w g) (g_kw g) (g_pad g) (g_sw g).
Definition img_of (w c : nat) (v : vec) : img := fun y x k => v ((Z.to_nat y * w + Z.to_nat x) * c + k)%nat.
Definition of_img (w c : nat) (m : img) : vec := fun k => m (Z.of_nat (k / c / w)) (Z.of_nat ((k / c) mod w)) (k mod c)%nat.

Inductive kind :=
| KFullyConnected (a : act) (rows nin nout : nat)
| KElementwise (a : act) (rows cols : nat)
| KHighway (rows cols : nat)                       (* inputs H, T, x *)
| KMerge (rows n1 n2 : nat)                        (* inputs_1, inputs_2 *)
| KMask (bc : bool) (rows cols : nat) (m : mat)
| KSquaredDifference (rows cols : nat)
| KSquaredError (rows cols : nat) (targets : mat)
| KSoftmaxCE (rows n : nat) (targets : nat -> nat) (* n + 1 classes *)
| KSigmoidCE (rows cols : nat) (targets : mat)
| KBatchNorm (rows cols : nat) (decay epsilon : R) (mu sigma sigma_b : vec)
| KRecurrent (a : act) (nin n T B : nat) (ctx : mat)  (* T + 1 steps *)
| KClockwork (a : act) (nin n : nat) (timing : vec) (T B : nat) (ctx : mat)
| KLstm (a : act) (nin n T B : nat)                (* without context *)
| KLoss (rows cols : nat) (importance batch : R)
| KClockworkLstm (a : act) (nin n : nat) (timing : vec) (T B : nat)  (* without context *)
| KNoOp (rows cols : nat)
| KDropout (drop_prob : R) (rows cols : nat) (mask : mat)    (* in training, with the mask drawn *)
| KL1Decay (rows cols : nat)
| KL2Decay (rows cols : nat)
| KBinomialCE (rows cols : nat) (targets : mat)
| KConvolution (a : act) (g : geometry) (images filters : nat)
| KMaxPool (precision : Z) (min_value : R) (g : geometry) (images : nat)
| KAvgPool (g : geometry) (images : nat).

(** Parameters of an LSTM layer in the order of lstm_layer.py *)
Definition lstm_of (nin n : nat) (p0 : vec) : lstm_par :=
  let w := (n * nin)%nat in let r := (n * n)%nat in
  let p1 := shift w p0 in let p2 := shift w p1 in let p3 := shift w p2 in let p4 := shift w p3 in
  let p5 := shift n p4 in let p6 := shift n p5 in let p7 := shift n p6 in
  let p8 := shift r p7 in let p9 := shift r p8 in let p10 := shift r p9 in let p11 := shift r p10 in
  let p12 := shift n p11 in let p13 := shift n p12 in let p14 := shift n p13 in
  mkPar (mat_of nin p0) (mat_of nin p1) (mat_of nin p2) (mat_of nin p3) p4 p5 p6
        (mat_of n p7) (mat_of n p8) (mat_of n p9) (mat_of n p10) p11 p12 p13 p14.
Definition lstm_to (nin n : nat) (g : lstm_par) : vec :=
  let w := (n * nin)%nat in let r := (n * n)%nat in
  cat w (vec_of nin (pWz g)) (cat w (vec_of nin (pWi g)) (cat w (vec_of nin (pWf g)) (cat w (vec_of nin (pWo g))
  (cat n (ppi g) (cat n (ppf g) (cat n (ppo g)
  (cat r (vec_of n (pRz g)) (cat r (vec_of n (pRi g)) (cat r (vec_of n (pRf g)) (cat r (vec_of n (pRo g))
  (cat n (pbz g) (cat n (pbi g) (cat n (pbf g) (pbo g)))))))))))))).
Definition lstm_np (nin n : nat) : nat :=
  let w := (n * nin)%nat in let r := (n * n)%nat in
  (w + (w + (w + (w + (n + (n + (n + (r + (r + (r + (r + (n + (n + (n + n))))))))))))))%nat.
Definition lstm_zero : lstm_par := lstm_of O O none.

Definition n_in (k : kind) : nat :=
  match k with
  | KFullyConnected _ rows nin _ => rows * nin
  | KElementwise _ rows cols | KMask _ rows cols _ | KSquaredError rows cols _ | KSigmoidCE rows cols _ | KBatchNorm rows cols _ _ _ _ _ | KLoss rows cols _ _ => rows * cols
  | KHighway rows cols => rows * cols + (rows * cols + rows * cols)
  | KMerge rows n1 n2 => rows * n1 + rows * n2
  | KSquaredDifference rows cols => rows * cols + rows * cols
  | KSoftmaxCE rows n _ => rows * S n
  | KRecurrent _ nin _ T B _ | KClockwork _ nin _ _ T B _ | KLstm _ nin _ T B | KClockworkLstm _ nin _ _ T B => S T * B * nin
  | KNoOp rows cols | KDropout _ rows cols _ | KL1Decay rows cols | KL2Decay rows cols | KBinomialCE rows cols _ => rows * cols
  | KConvolution _ g images _ | KMaxPool _ _ g images | KAvgPool g images => images * g_cells g
  end%nat.
Definition n_out (k : kind) : nat :=
  match k with
  | KFullyConnected _ rows _ nout => rows * nout
  | KElementwise _ rows cols | KMask _ rows cols _ | KSquaredError rows cols _ | KSigmoidCE rows cols _ | KBatchNorm rows cols _ _ _ _ _ => rows * cols
  | KHighway rows cols => rows * cols
  | KMerge rows n1 n2 => rows * (n1 + n2)
  | KSquaredDifference rows cols => rows * cols
  | KSoftmaxCE rows _ _ => rows
  | KRecurrent _ _ n T B _ | KClockwork _ _ n _ T B _ | KLstm _ _ n T B | KClockworkLstm _ _ n _ T B => S T * B * n
  | KNoOp rows cols | KDropout _ rows cols _ => rows * cols
  | KL1Decay rows _ | KL2Decay rows _ | KBinomialCE rows _ _ => rows
  | KConvolution _ g images filters => images * (g_oh g * g_ow g) * filters
  | KMaxPool _ _ g images | KAvgPool g images => images * (g_oh g * g_ow g * g_c g)
  | KLoss _ _ _ _ => 0
  end%nat.
Definition n_par (k : kind) : nat :=
  match k with
  | KFullyConnected _ _ nin nout => nout * nin + nout
  | KBatchNorm _ cols _ _ _ _ _ => cols + cols
  | KRecurrent _ nin n _ _ _ | KClockwork _ nin n _ _ _ _ => n * nin + (n * n + n)
  | KLstm _ nin n _ _ | KClockworkLstm _ nin n _ _ _ => lstm_np nin n
  | KConvolution _ g _ filters => filters * g_kernel g + filters
  | _ => 0
  end%nat.
(** One image of max pooling and average pooling *)
Definition max_of (precision : Z) (min_value : R) (g : geometry) (image : vec) : nat -> nat -> nat -> R * Z :=
  maxpool_forward (g_h g) (g_w g) (g_c g) (g_kh g) (g_kw g) (g_pad g) (g_sh g) (g_sw g) precision min_value (img_of (g_w g) (g_c g) image).
Definition avg_of (g : geometry) (image : vec) : nat -> nat -> nat -> R :=
  avgpool_forward (g_h g) (g_w g) (g_kh g) (g_kw g) (g_pad g) (g_sh g) (g_sw g) (img_of (g_w g) (g_c g) image).
Definition of_out (g : geometry) (m : nat -> nat -> nat -> R) : vec :=
  of_img (g_ow g) (g_c g) (fun y x c => m (Z.to_nat y) (Z.to_nat x) c).
Definition out_of (g : geometry) (v : vec) : nat -> nat -> nat -> R :=
  fun y x c => img_of (g_ow g) (g_c g) v (Z.of_nat y) (Z.of_nat x) c.
Definition conv_of (a : act) (g : geometry) (filters : nat) (p : vec) (images : mat) : seq :=
  fun i => conv_forward (g_h g) (g_w g) (g_c g) (g_kh g) (g_kw g) (g_pad g) (g_sh g) (g_sw g) a (mat_of (g_kernel g) p) (shift (filters * g_kernel g) p) (images i).
Definition k_fwd (k : kind) (p x : vec) : vec :=
  match k with
  | KFullyConnected a rows nin nout => vec_of nout (fc_forward nin a (mat_of nin p) (shift (nout * nin) p) (mat_of nin x))
  | KElementwise a rows cols => vec_of cols (elementwise_forward a (mat_of cols x))
  | KHighway rows cols => let m := (rows * cols)%nat in vec_of cols (highway_forward (mat_of cols x) (mat_of cols (shift m x)) (mat_of cols (shift m (shift m x))))
  | KMerge rows n1 n2 => vec_of (n1 + n2) (merge_forward n1 (mat_of n1 x) (mat_of n2 (shift (rows * n1) x)))
  | KMask bc rows cols m => vec_of cols (mask_forward bc (mat_of cols x) m)
  | KSquaredDifference rows cols => vec_of cols (sqdiff_forward (mat_of cols x) (mat_of cols (shift (rows * cols) x)))
  | KSquaredError rows cols t => vec_of cols (snd (sqerr_forward (mat_of cols x) t))
  | KSoftmaxCE rows n t => snd (softmax_ce_forward n (mat_of (S n) x) t)
  | KSigmoidCE rows cols t => vec_of cols (snd (sigmoid_ce_forward (mat_of cols x) t))
  | KBatchNorm rows cols decay epsilon mu sigma sb => vec_of cols (bn_out (bn_forward true rows decay epsilon p (shift cols p) mu sigma sb (mat_of cols x)))
  | KRecurrent a nin n T B ctx => vec_of n (flat B (rec_forward a nin n (S T) (mat_of nin p) (mat_of n (shift (n * nin) p)) (shift (n * n) (shift (n * nin) p)) (seq_of B nin x) ctx))
  | KClockwork a nin n timing T B ctx => vec_of n (flat B (cw_forward a nin n timing (S T) (mat_of nin p) (mat_of n (shift (n * nin) p)) (shift (n * n) (shift (n * nin) p)) (seq_of B nin x) ctx))
  | KLstm a nin n T B => vec_of n (flat B (lstm_y a nin n (S T) (lstm_of nin n p) (seq_of B nin x) zeros zeros))
  | KLoss _ _ _ _ => none
  | KClockworkLstm a nin n timing T B => vec_of n (flat B (cl_y a nin n timing (S T) (lstm_of nin n p) (seq_of B nin x) zeros zeros))
  | KNoOp rows cols => vec_of cols (noop_forward (mat_of cols x))
  | KDropout drop_prob rows cols mask => vec_of cols (dropout_forward true drop_prob mask (mat_of cols x))
  | KL1Decay rows cols => l1_forward cols (mat_of cols x)
  | KL2Decay rows cols => l2_forward cols (mat_of cols x)
  | KBinomialCE rows cols t => binomial_forward cols (mat_of cols x) t
  | KConvolution a g images filters => vec_of filters (flat (g_oh g * g_ow g) (conv_of a g filters p (mat_of (g_cells g) x)))
  | KMaxPool precision min_value g images =>
      vec_of (g_oh g * g_ow g * g_c g) (fun i => of_out g (fun y z c => fst (max_of precision min_value g (mat_of (g_cells g) x i) y z c)))
  | KAvgPool g images => vec_of (g_oh g * g_ow g * g_c g) (fun i => of_out g (avg_of g (mat_of (g_cells g) x i)))
  end.
Definition k_loss (k : kind) (p x : vec) : R :=
  match k with KLoss rows cols importance batch => loss_forward rows cols importance batch (mat_of cols x) | _ => 0 end.
(** Deltas added to the inputs, and gradients.  The outputs [y] and internals are those of the forward
    pass; where a backward pass uses internals they are computed anew from parameters
    and inputs. *)
Definition k_bwd (k : kind) (p x y dy g : vec) : vec * vec :=
  match k with
  | KFullyConnected a rows nin nout =>
      let '(dx, dW, db) := fc_backward rows nout a (mat_of nin p) (mat_of nin x) (mat_of nout y) zeros (mat_of nout dy) (mat_of nin g) (shift (nout * nin) g) in
      (vec_of nin dx, cat (nout * nin) (vec_of nin dW) db)
  | KElementwise a rows cols => (vec_of cols (elementwise_backward a (mat_of cols y) zeros (mat_of cols dy)), g)
  | KHighway rows cols => let m := (rows * cols)%nat in
      let '(dH, dT, dx) := highway_backward (mat_of cols x) (mat_of cols (shift m x)) (mat_of cols (shift m (shift m x))) zeros zeros zeros (mat_of cols dy) in
      (cat m (vec_of cols dH) (cat m (vec_of cols dT) (vec_of cols dx)), g)
  | KMerge rows n1 n2 => let '(da, db) := merge_backward n1 (mat_of (n1 + n2) dy) zeros zeros in (cat (rows * n1) (vec_of n1 da) (vec_of n2 db), g)
  | KMask bc rows cols m => (vec_of cols (mask_backward bc m zeros (mat_of cols dy)), g)
  | KSquaredDifference rows cols =>
      let '(d1, d2) := sqdiff_backward (mat_of cols x) (mat_of cols (shift (rows * cols) x)) zeros zeros (mat_of cols dy) in (cat (rows * cols) (vec_of cols d1) (vec_of cols d2), g)
  | KSquaredError rows cols t => (vec_of cols (sqerr_backward (mat_of cols x) t zeros (mat_of cols dy)), g)
  | KSoftmaxCE rows n t => (vec_of (S n) (softmax_ce_backward (fst (softmax_ce_forward n (mat_of (S n) x) t)) t zeros dy), g)
  | KSigmoidCE rows cols t => (vec_of cols (sigmoid_ce_backward (fst (sigmoid_ce_forward (mat_of cols x) t)) t zeros (mat_of cols dy)), g)
  | KBatchNorm rows cols decay epsilon mu sigma sb =>
      let st := bn_forward true rows decay epsilon p (shift cols p) mu sigma sb (mat_of cols x) in
      let '(dx, dgamma, dbeta) := bn_backward rows p (bn_sigma_b st) (bn_x_hat st) (mat_of cols dy) zeros g (shift cols g) in (vec_of cols dx, cat cols dgamma dbeta)
  | KRecurrent a nin n T B ctx =>
      let yy := fun t => if (t <? S T)%nat then seq_of B n y t else ctx in
      let '(dx, dW, dR, db) := rec_backward a n (S T) B (mat_of nin p) (mat_of n (shift (n * nin) p)) (seq_of B nin x) yy (seq_of B n dy) zeros
                                 (mat_of nin g) (mat_of n (shift (n * nin) g)) (shift (n * n) (shift (n * nin) g)) in
      (vec_of nin dx, cat (n * nin) (vec_of nin dW) (cat (n * n) (vec_of n dR) db))
  | KClockwork a nin n timing T B ctx =>
      let yy := fun t => if (t <? S T)%nat then seq_of B n y t else ctx in
      let '(dx, dW, dR, db) := cw_backward a n timing (S T) B (mat_of nin p) (mat_of n (shift (n * nin) p)) (seq_of B nin x) yy (seq_of B n dy) zeros
                                 (mat_of nin g) (mat_of n (shift (n * nin) g)) (shift (n * n) (shift (n * nin) g)) in
      (vec_of nin dx, cat (n * nin) (vec_of nin dW) (cat (n * n) (vec_of n dR) db))
  | KLstm a nin n T B =>
      let P := lstm_of nin n p in let X := seq_of B nin x in
      let '(dx, g1) := lstm_backward a n (S T) B P X (lstm_y a nin n (S T) P X zeros zeros) (lstm_Ca a nin n (S T) P X zeros zeros) (lstm_state a nin n P X zeros zeros) zeros (seq_of B n dy) zeros (lstm_of nin n g) in
      (vec_of nin dx, lstm_to nin n g1)
  | KLoss rows cols importance batch => (vec_of cols (loss_backward importance batch zeros), g)
  | KClockworkLstm a nin n timing T B =>
      let P := lstm_of nin n p in let X := seq_of B nin x in
      let '(dx, g1) := cl_backward a n timing (S T) B P X (cl_y a nin n timing (S T) P X zeros zeros) (cl_Ca a nin n timing (S T) P X zeros zeros) (cl_state a nin n timing P X zeros zeros) zeros (seq_of B n dy) zeros (lstm_of nin n g) in
      (vec_of nin dx, lstm_to nin n g1)
  | KNoOp rows cols => (vec_of cols (noop_backward zeros (mat_of cols dy)), g)
  | KDropout _ rows cols mask => (vec_of cols (dropout_backward mask zeros (mat_of cols dy)), g)
  | KL1Decay rows cols => (vec_of cols (l1_backward (mat_of cols x) zeros dy), g)
  | KL2Decay rows cols => (vec_of cols (l2_backward (mat_of cols x) zeros dy), g)
  | KBinomialCE rows cols t => (vec_of cols (binomial_backward (mat_of cols x) t zeros dy), g)
  | KConvolution a q images filters =>
      let '(din, dW, db) := conv_backward (g_h q) (g_w q) (g_c q) (g_kh q) (g_kw q) (g_pad q) (g_sh q) (g_sw q) a images filters (mat_of (g_kernel q) p)
                              (mat_of (g_cells q) x) (seq_of (g_oh q * g_ow q) filters y) (seq_of (g_oh q * g_ow q) filters dy) (fun _ _ => 0) in
      (vec_of (g_cells q) (fun i k => din i (Z.of_nat k)), cat (filters * g_kernel q) (vec_of (g_kernel q) dW) db)
  | KMaxPool precision min_value q images =>
      (vec_of (g_cells q) (fun i => of_img (g_w q) (g_c q)
         (maxpool_backward (g_h q) (g_w q) (g_c q) (g_kh q) (g_kw q) (g_pad q) (g_sh q) (g_sw q)
            (fun y z c => snd (max_of precision min_value q (mat_of (g_cells q) x i) y z c)) (out_of q (mat_of (g_oh q * g_ow q * g_c q) dy i)) (fun _ _ _ => 0))), g)
  | KAvgPool q images =>
      (vec_of (g_cells q) (fun i => of_img (g_w q) (g_c q)
         (avgpool_backward (g_h q) (g_w q) (g_c q) (g_kh q) (g_kw q) (g_pad q) (g_sh q) (g_sw q) (out_of q (mat_of (g_oh q * g_ow q * g_c q) dy i)) (fun _ _ _ => 0))), g)
  end.
(** Output deltas after the backward pass: FullyConnected and Convolution2D overwrite
    them (fully_connected_layer.py:77, convolution_layer_2d.py:110). *)
Definition k_dout (k : kind) (y dy : vec) : vec :=
  match k with
  | KFullyConnected a rows nin nout => vec_of nout (fun i j => act_deriv a (mat_of nout y i j) (mat_of nout dy i j))
  | KConvolution a g images filters => vec_of filters (fun i j => act_deriv a (mat_of filters y i j) (mat_of filters dy i j))
  | _ => dy
  end.
(** A layer of a network with the given input and output cells *)
Definition layer_of (k : kind) (ins outs : list nat) : layer :=
  mkL ins outs (n_par k) (fun p x => (k_fwd k p x, none)) (k_loss k)
      (fun p x y int dy dint g => let '(dx, g1) := k_bwd k p x y dy g in mkB dx (k_dout k y dy) int dint g1).
