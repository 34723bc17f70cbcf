(** Model of the forward and backward passes of the layers without time dependence
    (brainstorm/layers), over exact reals.  All buffers are given in the flattened
    form the code works on: [rows] = time steps * batch size (for SoftmaxCE and
    BatchNorm all but the last dimension), [cols] = number of features. *)
From Coq Require Import Reals Arith List.
From Verif Require Import NumBase NumpyModel.
Import ListNotations.
Open Scope R_scope.

(** ** FullyConnected (fully_connected_layer.py:52-80) *)
Definition fc_forward (nin : nat) (a : act) (W : mat) (bias : vec) (inputs : mat) : mat :=
  let outputs := dot_mm nin inputs (trans W) in                     (* 60 *)
  let outputs := fun i j => outputs i j + bias j in                 (* 61 *)
  fun i j => act_inplace a (outputs i j).                           (* 62 *)
(** Results: in_deltas, dW, dbias.  The old contents of dW and dbias are overwritten
    (79-80), in_deltas are added to. *)
Definition fc_backward (rows nout : nat) (a : act) (W inputs outputs in_deltas out_deltas dW : mat) (dbias : vec) : mat * mat * vec :=
  let out_deltas := fun i j => act_deriv a (outputs i j) (out_deltas i j) in   (* 77 *)
  (dot_add_mm nout out_deltas W in_deltas,                                    (* 78 *)
   dot_mm rows (trans out_deltas) inputs,                                     (* 79 *)
   sum0 rows out_deltas).                                                     (* 80 *)

(** ** Highway (highway_layer.py:40-71) *)
Definition highway_forward (H T x : mat) : mat :=
  let tmp := fun i j => H i j - x i j in
  let tmp := fun i j => T i j * tmp i j in
  fun i j => tmp i j + x i j.
(** Results: dH, dT, dx *)
Definition highway_backward (H T x dH dT dx dy : mat) : mat * mat * mat :=
  let tmp := fun i j => 1 - T i j in
  let dx := fun i j => dx i j + tmp i j * dy i j in
  let dH := fun i j => dH i j + T i j * dy i j in
  let tmp := fun i j => H i j - x i j in
  let dT := fun i j => dT i j + tmp i j * dy i j in
  (dH, dT, dx).

(** ** Merge (merge_layer.py:46-57; numpy_handler.py:221-225, 251-256); [n1] columns come
    from the first input. *)
Definition merge_forward (n1 : nat) (a b : mat) : mat := fun i j => if j <? n1 then a i j else b i (j - n1)%nat.
Definition merge_backward (n1 : nat) (x da db : mat) : mat * mat :=
  (fun i j => da i j + x i j, fun i j => db i j + x i (n1 + j)%nat).

(** ** Mask (mask_layer.py:49-67).  [bc] tells whether the mask has one column only
    (it is then broadcast by mult_mv). *)
Definition mask_at (bc : bool) (m : mat) (i j : nat) : R := if bc then m i O else m i j.
Definition mask_forward (bc : bool) (x m : mat) : mat := fun i j => x i j * mask_at bc m i j.
Definition mask_backward (bc : bool) (m dx dy : mat) : mat :=
  let tmp := fun i j => dy i j * mask_at bc m i j in fun i j => tmp i j + dx i j.

(** ** NoOp (noop_layer.py:28-34) and DeltasScaling (deltas_scaling_layer.py:37-43) *)
Definition noop_forward (x : mat) : mat := x.
Definition noop_backward (dx dy : mat) : mat := fun i j => dy i j + dx i j.
Definition scaling_backward (factor : R) (dx dy : mat) : mat := fun i j => dx i j + factor * dy i j.

(** ** Elementwise (elementwise_layer.py:30-40) *)
Definition elementwise_forward (a : act) (x : mat) : mat := fun i j => act_f a (x i j).
Definition elementwise_backward (a : act) (y dx dy : mat) : mat :=
  let tmp := fun i j => act_deriv a (y i j) (dy i j) in fun i j => dx i j + tmp i j.

(** ** SquaredDifference (squared_difference_layer.py:42-67) *)
Definition sqdiff_forward (x1 x2 : mat) : mat :=
  let diff := fun i j => x1 i j - x2 i j in fun i j => diff i j * diff i j.
Definition sqdiff_backward (x1 x2 dx1 dx2 dy : mat) : mat * mat :=
  let diff := fun i j => x1 i j - x2 i j in       (* internals.diff of the forward pass *)
  let dy := fun i j => 2 * dy i j in
  let dx1 := fun i j => dx1 i j + dy i j * diff i j in
  let tmp := fun i j => -1 * diff i j in
  (dx1, fun i j => dx2 i j + dy i j * tmp i j).

(** ** SquaredError (squared_error_layer.py:56-79) *)
Definition sqerr_forward (x t : mat) : mat * mat :=
  let diff := fun i j => x i j - t i j in (x, fun i j => / 2 * (diff i j * diff i j)).
Definition sqerr_backward (x t dx dloss : mat) : mat :=
  let diff := fun i j => x i j - t i j in fun i j => dx i j + dloss i j * diff i j.

(** ** L1Decay (l1_decay.py:35-69) and L2Decay (l2_decay.py:37-71); one output per row *)
Definition l1_forward (cols : nat) (x : mat) : vec := fun i => Rsum cols (fun j => Rabs (x i j)).
Definition l1_backward (x dx : mat) (dloss : vec) : mat := fun i j => sign (x i j) * dloss i + dx i j.
Definition l2_forward (cols : nat) (x : mat) : vec := fun i => Rsum cols (fun j => / 2 * (x i j * x i j)).
Definition l2_backward (x dx : mat) (dloss : vec) : mat := fun i j => x i j * dloss i + dx i j.

(** ** Loss (loss_layer.py:38-58); [batch] is 1 for inputs that do not scale with the
    batch size. *)
Definition loss_forward (rows cols : nat) (importance batch : R) (x : mat) : R :=
  importance / batch * Rsum rows (fun i => Rsum cols (fun j => x i j)).
Definition loss_backward (importance batch : R) (dx : mat) : mat := fun i j => dx i j + importance / batch.

(** ** Dropout (dropout_layer.py:36-52) with the mask drawn by the forward pass *)
Definition dropout_forward (training : bool) (drop_prob : R) (mask x : mat) : mat :=
  if training then fun i j => 1 / (1 - drop_prob) * (x i j * mask i j) else x.
Definition dropout_backward (mask dx dy : mat) : mat := fun i j => dx i j + dy i j * mask i j.

(** ** SoftmaxCE (softmax_ce_layer.py:65-114); rows of [S n] classes, [t i] is the
    target class of row [i].  Results of the forward pass: predictions, loss. *)
Definition eps6 : R := 1 / 1000000.
Definition softmax_ce_forward (n : nat) (x : mat) (t : nat -> nat) : mat * vec :=
  let probs := fun i => softmax n (x i) in
  let loss := fun i => probs i (t i) in
  let loss := fun i => clip eps6 1 (loss i) in
  let loss := fun i => ln (loss i) in
  (probs, fun i => -1 * loss i).
Definition softmax_ce_backward (probs : mat) (t : nat -> nat) (dx : mat) (dloss : vec) : mat :=
  let t_bin := fun i j => if (j =? t i)%nat then 1 else 0 in
  let t_bin := fun i j => -1 * t_bin i j in
  let t_bin := fun i j => t_bin i j + probs i j in
  let t_bin := fun i j => t_bin i j * dloss i in
  fun i j => t_bin i j + dx i j.

(** ** SigmoidCE (sigmoid_ce_layer.py:58-100) *)
Definition ce_loss (y t : R) : R :=
  let tmp := (1 - t) * ln (clip eps6 1 (1 - y)) in
  tmp + t * ln (clip eps6 1 y).
Definition sigmoid_ce_forward (x t : mat) : mat * mat :=
  let prob := fun i j => act_f Sigmoid (x i j) in
  (prob, fun i j => -1 * ce_loss (prob i j) (t i j)).
Definition sigmoid_ce_backward (prob t dx dloss : mat) : mat :=
  let dcee := fun i j => prob i j - t i j in
  let dcee := fun i j => dcee i j * dloss i j in
  fun i j => dcee i j + dx i j.

(** ** BinomialCrossEntropy (binomial_cross_entropy_layer.py:59-116); one output per row *)
Definition binomial_forward (cols : nat) (y t : mat) : vec := fun i => -1 * Rsum cols (fun j => ce_loss (y i j) (t i j)).
Definition binomial_backward (y t dy : mat) (dsum : vec) : mat :=
  let ceed := fun i j => y i j - y i j * y i j in
  let ceed := fun i j => clip eps6 1 (ceed i j) in
  let tmp := fun i j => y i j - t i j in
  let ceed := fun i j => tmp i j / ceed i j in
  let ceed := fun i j => ceed i j * dsum i in     (* broadcast_t, see below *)
  fun i j => ceed i j + dy i j.
(** numpy_handler.py:103-105: broadcast_t(a, axis, out) asserts out.shape[:axis] + (1,) +
    out.shape[axis+1:] == a.shape.  Here the output deltas have the shape (T, B, 1), the
    target the shape of the inputs (binomial_cross_entropy_layer.py:113). *)
Definition broadcast_ok (axis : nat) (a_shape out_shape : list nat) : bool :=
  if list_eq_dec Nat.eq_dec (firstn axis out_shape ++ [1%nat] ++ skipn (axis + 1) out_shape) a_shape then true else false.
Definition binomial_backward_ok (T B : nat) (features : list nat) : bool := broadcast_ok 2 [T; B; 1%nat] (T :: B :: features).

(** ** BatchNorm (batch_normalization_layer.py:54-152) *)
Record bn_state := mkBn { bn_sigma_b : vec; bn_centered : mat; bn_x_hat : mat; bn_mu : vec; bn_sigma : vec; bn_out : mat }.
Definition bn_forward (training : bool) (m : nat) (decay epsilon : R) (gamma beta mu sigma : vec) (sigma_b : vec) (inputs : mat) : bn_state :=
  let mu_b := fun j => -1 / INR m * sum0 m inputs j in                        (* 68-69 *)
  let mu' := if training then fun j => decay * mu j + (1 - decay) * mu_b j else mu in  (* 73-74 *)
  let used_mu := if training then mu_b else mu in
  let centered := fun i j => inputs i j + used_mu j in                        (* 79 *)
  let sigma2 := fun j => 1 / INR m * sum0 m (fun i j => centered i j * centered i j) j in  (* 85-87 *)
  let sigma_b' := if training then fun j => sqrt (sigma2 j + epsilon) else sigma_b in      (* 88-91 *)
  let sigma' := if training then fun j => decay * sigma j + (1 - decay) * sigma_b' j else sigma in
  let used_sigma := if training then sigma_b' else sigma in
  let x_hat := fun i j => centered i j / used_sigma j in                      (* 101 *)
  mkBn sigma_b' centered x_hat mu' sigma' (fun i j => x_hat i j * gamma j + beta j).       (* 104-105 *)
(** Results: in_deltas, dgamma, dbeta *)
Definition bn_backward (m : nat) (gamma sigma_b : vec) (x_hat outdeltas indeltas : mat) (dgamma dbeta : vec) : mat * vec * vec :=
  let dgamma_tmp := sum0 m (fun i j => outdeltas i j * x_hat i j) in
  let dgamma := fun j => dgamma_tmp j + dgamma j in
  let dgamma_tmp := fun j => 1 / INR m * dgamma_tmp j in
  let term1 := fun i j => x_hat i j * dgamma_tmp j in
  let dbeta_tmp := sum0 m outdeltas in
  let dbeta := fun j => dbeta_tmp j + dbeta j in
  let dbeta_tmp := fun j => 1 / INR m * dbeta_tmp j in
  let term2 := fun i j => outdeltas i j - term1 i j in
  let term3 := fun i j => term2 i j - dbeta_tmp j in
  let coeff := fun j => gamma j / sigma_b j in
  let term4 := fun i j => term3 i j * coeff j in
  (fun i j => term4 i j + indeltas i j, dgamma, dbeta).
