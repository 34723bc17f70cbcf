(** Model of the pooling kernels (handlers/_cpuop.pyx:25-206), over exact reals.
    One image of the batch (the loop over [i] treats the images separately); an image is
    indexed by row, column, channel. *)
From Coq Require Import Reals ZArith Arith List Bool.
From Verif Require Import NumBase NumpyModel ConvModel.
Import ListNotations.
Open Scope R_scope.

Definition img := Z -> Z -> nat -> R.
(** for v in range(lo, hi) *)
Definition for_range {S} (lo hi : Z) (body : Z -> S -> S) (s : S) : S :=
  loop (Z.to_nat (hi - lo)) (fun i => body (lo + Z.of_nat i)%Z) s.
(** m[y, x, c] += v *)
Definition add_at (m : img) (y x : Z) (c : nat) (v : R) : img :=
  fun y' x' c' => if ((y' =? y)%Z && (x' =? x)%Z && (c' =? c)%nat)%bool then m y' x' c' + v else m y' x' c'.
(** [<DTYPE_t>max_idx] (77): an integer stored as a floating point number with [p] bits of
    precision (24 for float32, 53 for float64), rounded to nearest, ties to even. *)
Definition round_even (a b : Z) : Z :=
  let q := (a / b)%Z in let r := (a mod b)%Z in
  if (2 * r <? b)%Z then q else if (b <? 2 * r)%Z then (q + 1)%Z else if Z.even q then q else (q + 1)%Z.
Definition store_int (p z : Z) : Z :=
  if (Z.abs z <? 2 ^ p)%Z then z
  else let e := (Z.log2 (Z.abs z) - (p - 1))%Z in (Z.sgn z * (round_even (Z.abs z) (2 ^ e) * 2 ^ e))%Z.

Section Pool.
Variables (in_h in_w n_channels : nat) (pool_h pool_w padding stride_y stride_x : nat).
(** the layer's output size (pooling_layer_2d.py:58-61) *)
Definition out_h : nat := Z.to_nat (out_dim in_h padding pool_h stride_y).
Definition out_w : nat := Z.to_nat (out_dim in_w padding pool_w stride_x).
(** 58-60, 62-64 and the same lines in the other kernels *)
Definition y_min (y_out : nat) : Z := Z.max (Z.of_nat y_out * Z.of_nat stride_y - Z.of_nat padding) 0.
Definition y_max (y_out : nat) : Z := Z.min (Z.of_nat y_out * Z.of_nat stride_y - Z.of_nat padding + Z.of_nat pool_h) (Z.of_nat in_h).
Definition x_min (x_out : nat) : Z := Z.max (Z.of_nat x_out * Z.of_nat stride_x - Z.of_nat padding) 0.
Definition x_max (x_out : nat) : Z := Z.min (Z.of_nat x_out * Z.of_nat stride_x - Z.of_nat padding + Z.of_nat pool_w) (Z.of_nat in_w).

(** maxpool_forward (25-79) at one output position; [min_value] is -FLT_MAX or -DBL_MAX;
    [precision] is the one of DTYPE_t.  Results: outputs, argmax. *)
Definition max_scan (min_value : R) (image : img) (y_out x_out c : nat) : R * Z :=
  for_range (y_min y_out) (y_max y_out) (fun in_y st =>
    for_range (x_min x_out) (x_max x_out) (fun in_x st => let '(value, max_idx) := st in
      let new_value := image in_y in_x c in
      if Rlt_dec value new_value then (new_value, ((in_y * Z.of_nat in_w + in_x) * Z.of_nat n_channels + Z.of_nat c)%Z) else (value, max_idx)) st)
    (min_value, (-1)%Z).
Definition maxpool_forward (precision : Z) (min_value : R) (image : img) (y_out x_out c : nat) : R * Z :=
  let '(value, max_idx) := max_scan min_value image y_out x_out c in
  (if (max_idx =? -1)%Z then 0 else value, store_int precision max_idx).
(** maxpool_backward (82-114) *)
Definition maxpool_backward (argmax : nat -> nat -> nat -> Z) (out_deltas : nat -> nat -> nat -> R) (in_deltas : img) : img :=
  loop n_channels (fun c in_deltas =>
    loop out_h (fun y in_deltas =>
      loop out_w (fun x in_deltas =>
        let max_idx := argmax y x c in
        if (max_idx =? -1)%Z then in_deltas
        else
          let map_loc := (max_idx / Z.of_nat n_channels)%Z in
          let in_y := (map_loc / Z.of_nat in_w)%Z in
          let in_x := (map_loc mod Z.of_nat in_w)%Z in
          if ((0 <=? in_y) && (0 <=? in_x))%Z%bool then add_at in_deltas in_y in_x c (out_deltas y x c) else in_deltas) in_deltas) in_deltas) in_deltas.

(** avgpool_forward (118-161) at one output position *)
Definition avgpool_forward (image : img) (y_out x_out c : nat) : R :=
  let value := for_range (y_min y_out) (y_max y_out) (fun in_y value =>
    for_range (x_min x_out) (x_max x_out) (fun in_x value => value + image in_y in_x c) value) 0 in
  let pool_size := Z.max ((y_max y_out - y_min y_out) * (x_max x_out - x_min x_out)) 1 in
  value / IZR pool_size.
(** avgpool_backward (165-206) *)
Definition avgpool_backward (out_deltas : nat -> nat -> nat -> R) (in_deltas : img) : img :=
  loop n_channels (fun c in_deltas =>
    loop out_h (fun y_out in_deltas =>
      loop out_w (fun x_out in_deltas =>
        let pool_size := ((y_max y_out - y_min y_out) * (x_max x_out - x_min x_out))%Z in
        for_range (y_min y_out) (y_max y_out) (fun yy in_deltas =>
          for_range (x_min x_out) (x_max x_out) (fun xx in_deltas =>
            add_at in_deltas yy xx c (out_deltas y_out x_out c / IZR pool_size)) in_deltas) in_deltas) in_deltas) in_deltas) in_deltas.
End Pool.
