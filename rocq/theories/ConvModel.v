(** Model of convolution and pooling (handlers/numpy_handler.py:110-171, 200-215,
    handlers/_cpuop.pyx, layers/convolution_layer_2d.py, layers/pooling_layer_2d.py), over
    exact reals.  Images are flat, in the order row, column, channel. *)
From Coq Require Import Reals ZArith Arith List Bool.
From Verif Require Import NumBase NumpyModel.
Import ListNotations.
Open Scope R_scope.

(** for i in range(n) *)
Fixpoint loop {S} (n : nat) (body : nat -> S -> S) (s : S) : S :=
  match n with O => s | Datatypes.S k => body k (loop k body s) end.
(** a[lo:lo+len] = f *)
Definition set_block (m : nat -> R) (lo len : nat) (f : nat -> R) : nat -> R :=
  fun k => if ((lo <=? k) && (k <? lo + len))%nat%bool then f (k - lo)%nat else m k.
(** (size + 2 * padding - kernel) // stride + 1: convolution_layer_2d.py:66-69,
    _cpuop.pyx:258-259 (floor division; a stride of 0 raises ZeroDivisionError in
    Python, the theorems about sizes exclude it) *)
Definition out_dim (size padding kernel stride : nat) : Z :=
  ((Z.of_nat size + 2 * Z.of_nat padding - Z.of_nat kernel) / Z.of_nat stride + 1)%Z.
Definition in_image (height width : nat) (y x : Z) : bool :=
  ((0 <=? y) && (y <? Z.of_nat height) && (0 <=? x) && (x <? Z.of_nat width))%Z%bool.

Section Image.
Variables (height width channels : nat) (kernel_h kernel_w padding stride_h stride_w : nat).
Definition height_col : nat := Z.to_nat (out_dim height padding kernel_h stride_h).
Definition width_col : nat := Z.to_nat (out_dim width padding kernel_w stride_w).

(** _cpuop.pyx:251-277 im2col *)
Definition im2col (flat_in flat_col : nat -> R) : nat -> R :=
  let '(flat_col, _, _) :=
    loop height_col (fun _ st => let '(flat_col, col_idx, h_pad) := st in
      let '(flat_col, col_idx, _) :=
        loop width_col (fun _ st => let '(flat_col, col_idx, w_pad) := st in
          let '(flat_col, col_idx) :=
            loop kernel_h (fun i st => let ih := (h_pad + Z.of_nat i)%Z in
              loop kernel_w (fun j st => let '(flat_col, col_idx) := st in let iw := (w_pad + Z.of_nat j)%Z in
                let flat_col :=
                  if in_image height width ih iw
                  then set_block flat_col col_idx channels (fun c => flat_in (Z.to_nat ((ih * Z.of_nat width + iw) * Z.of_nat channels) + c)%nat)
                  else set_block flat_col col_idx channels (fun _ => 0) in
                (flat_col, (col_idx + channels)%nat)) st) (flat_col, col_idx) in
          (flat_col, col_idx, (w_pad + Z.of_nat stride_w)%Z)) (flat_col, col_idx, (- Z.of_nat padding)%Z) in
      (flat_col, col_idx, (h_pad + Z.of_nat stride_h)%Z)) (flat_col, O, (- Z.of_nat padding)%Z) in
  flat_col.

(** _cpuop.pyx:282-309 col2im; the index into flat_in is only used when it is inside of
    the image *)
Definition col2im (flat_col : nat -> R) (flat_in : Z -> R) : Z -> R :=
  let '(flat_in, _, _) :=
    loop height_col (fun _ st => let '(flat_in, col_idx, h_pad) := st in
      let '(flat_in, col_idx, _) :=
        loop width_col (fun _ st => let '(flat_in, col_idx, w_pad) := st in
          let im_patch_idx := ((h_pad * Z.of_nat width + w_pad) * Z.of_nat channels)%Z in
          let '(flat_in, col_idx, _) :=
            loop kernel_h (fun i st => let ih := (h_pad + Z.of_nat i)%Z in
              let '(flat_in, col_idx, im_patch_idx) :=
                loop kernel_w (fun j st => let '(flat_in, col_idx, im_patch_idx) := st in let iw := (w_pad + Z.of_nat j)%Z in
                  let flat_in :=
                    if in_image height width ih iw
                    then loop channels (fun idx (m : Z -> R) k => if (k =? im_patch_idx + Z.of_nat idx)%Z then m k + flat_col (col_idx + idx)%nat else m k) flat_in
                    else flat_in in
                  (flat_in, (col_idx + channels)%nat, (im_patch_idx + Z.of_nat channels)%Z)) st in
              (flat_in, col_idx, (im_patch_idx + Z.of_nat channels * (Z.of_nat width - Z.of_nat kernel_w))%Z)) (flat_in, col_idx, im_patch_idx) in
          (flat_in, col_idx, (w_pad + Z.of_nat stride_w)%Z)) (flat_in, col_idx, (- Z.of_nat padding)%Z) in
      (flat_in, col_idx, (h_pad + Z.of_nat stride_h)%Z)) (flat_in, O, (- Z.of_nat padding)%Z) in
  flat_in.

(** ** Convolution *)
Definition num_kernel_params : nat := (kernel_h * kernel_w * channels)%nat.
Definition num_output_pixels : nat := (height_col * width_col)%nat.
(** numpy_handler.py:149-170 for one image, inplace activation function
    (convolution_layer_2d.py:92).  [weights]: filters x kernel parameters (reshaped) *)
Definition conv_forward (a : act) (weights : mat) (bias : vec) (image : nat -> R) : mat :=
  let flat_col := im2col image (fun _ => 0) in
  let col := fun r q => flat_col (r * num_kernel_params + q)%nat in
  let outputs := dot_mm num_kernel_params col (trans weights) in
  let outputs := fun r f => outputs r f + bias f in
  fun r f => act_inplace a (outputs r f).
(** numpy_handler.py:110-147 with inplace_act_func_deriv (convolution_layer_2d.py:110) for a batch of
    [num_images] images.  Results: in_deltas, dparams, dbias (whose old contents are
    dropped).  The array [col] is reused; im2col overwrites all of it. *)
Definition conv_backward (a : act) (num_images num_filters : nat) (weights : mat) (inputs : nat -> nat -> R) (outputs out_deltas : nat -> mat) (in_deltas : nat -> Z -> R)
  : (nat -> Z -> R) * mat * vec :=
  let out_deltas := fun i r f => act_deriv a (outputs i r f) (out_deltas i r f) in
  let dparams : mat := fun _ _ => 0 in
  let dbias : vec := fun _ => 0 in
  let flat_col : nat -> R := fun _ => 0 in
  let '(in_deltas, dparams, dbias, _) :=
    loop num_images (fun i st => let '(in_deltas, dparams, dbias, flat_col) := st in
      let flat_col := im2col (inputs i) flat_col in
      let col := fun r q => flat_col (r * num_kernel_params + q)%nat in
      let dparams := dot_add_mm num_output_pixels (trans (out_deltas i)) col dparams in
      let dbias := fun f => dbias f + sum0 num_output_pixels (out_deltas i) f in
      let col := dot_mm num_filters (out_deltas i) weights in
      let flat_col := fun k => col (k / num_kernel_params)%nat (k mod num_kernel_params)%nat in
      let in_deltas := fun j => if (j =? i)%nat then col2im flat_col (in_deltas j) else in_deltas j in
      (in_deltas, dparams, dbias, flat_col)) (in_deltas, dparams, dbias, flat_col) in
  (in_deltas, dparams, dbias).
End Image.
