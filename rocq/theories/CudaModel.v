(** Model of the CUDA kernels of brainstorm/handlers/pycuda_handler.py, over exact reals
    and unbounded integers.  What pycuda and skcuda do themselves (running an
    ElementwiseKernel for all elements, matrix products, matrix-vector operations, sums,
    random numbers) is not modelled.  Line numbers are those of that file.  The arrays a
    kernel reads are other arrays than those it writes, but in softmax_kernel; a += is one
    step; the fast __expf is [exp]. *)
From Coq Require Import Reals ZArith Arith List Bool.
From Verif Require Import NumBase NumpyModel ConvModel PoolModel.
Import ListNotations.
Open Scope R_scope.
Local Coercion Z.of_nat : nat >-> Z.

(** ** Threads *)
(** What a thread does to the memory: [Put a i v]: a[i] = v; [Inc a i v]: a[i] += v;
    [AtomicAdd a i v]: atomicAdd(a + i, v).  Arrays are numbered. *)
Inductive write := Put (a : nat) (i : Z) (v : R) | Inc (a : nat) (i : Z) (v : R) | AtomicAdd (a : nat) (i : Z) (v : R).
Definition memory := nat -> Z -> R.
Definition cell (w : write) : nat * Z := match w with Put a i _ | Inc a i _ | AtomicAdd a i _ => (a, i) end.
Definition cell_eqb (c d : nat * Z) : bool := ((fst c =? fst d)%nat && (snd c =? snd d)%Z)%bool.
Definition perform (m : memory) (w : write) : memory := fun a i =>
  if cell_eqb (a, i) (cell w) then match w with Put _ _ v => v | Inc _ _ v | AtomicAdd _ _ v => m a i + v end else m a i.
Definition exec (ws : list write) (m : memory) : memory := fold_left perform ws m.
(** The order in which the writes of all threads take effect: any interleaving *)
Definition set_nth {X} (k : nat) (x : X) (l : list X) : list X := firstn k l ++ x :: skipn (S k) l.
Inductive interleaving : list (list write) -> list write -> Prop :=
| finished ts : Forall (eq []) ts -> interleaving ts []
| thread_step ts k w r l : nth_error ts k = Some (w :: r) -> interleaving (set_nth k r ts) l -> interleaving ts (w :: l).
(** No cell is written by two threads, but by atomicAdd *)
Definition race_free (ts : list (list write)) : Prop :=
  forall k k' t t' w w', nth_error ts k = Some t -> nth_error ts k' = Some t' -> k <> k' -> In w t -> In w' t' -> cell w = cell w' ->
    (exists a i v, w = AtomicAdd a i v) /\ (exists a i v, w' = AtomicAdd a i v).

Definition zrange (n : Z) : list Z := map Z.of_nat (seq 0 (Z.to_nat n)).
(** for (index = first; index < n; index += step), with a pointer that is moved by
    [offset] and carried on to the next iteration *)
Fixpoint strided (fuel : nat) (index step n offset : Z) (body : Z -> Z -> list write * Z) : list write :=
  match fuel with
  | O => []
  | S f => if (index <? n)%Z then let '(ws, offset') := body index offset in ws ++ strided f (index + step) step n offset' body else []
  end.
(** A launch with blocks of [dim] threads, each running such a loop from
    blockIdx.x * blockDim.x + threadIdx.x by blockDim.x * gridDim.x.  One unit of fuel
    per index suffices. *)
Definition launch (blocks dim n : Z) (body : Z -> Z -> list write * Z) : list (list write) :=
  flat_map (fun block => map (fun thread => strided (Z.to_nat n) (block * dim + thread) (dim * blocks) n 0 body) (zrange dim)) (zrange blocks).
(** 19-23 *)
Definition NUM_CUDA_THREADS : Z := 1024.
Definition get_blocks (n : Z) : Z := ((n + NUM_CUDA_THREADS - 1) / NUM_CUDA_THREADS)%Z.
(** 46-66 _get_gridsize: blocks, threads per block *)
Definition get_gridsize (n : Z) : Z * Z :=
  (let min_threads := 32 in let max_threads := 256 in let max_blocks := 384 in
   if n <? min_threads then (1, min_threads)
   else if n <? max_blocks * min_threads then ((n + min_threads - 1) / min_threads, min_threads)
   else if n <? max_blocks * max_threads then
     let grp := (n + min_threads - 1) / min_threads in (max_blocks, (grp + max_blocks - 1) / max_blocks * min_threads)
   else (max_blocks, max_threads))%Z.

(** ** Elementwise kernels (418-579): one element *)
Definition to_int (x : R) : Z := if Rle_dec 0 x then Int_part x else (- Int_part (- x))%Z.   (* (int) x *)
Definition k_add_into_if (a out cond : R) : R := if Req_EM_T cond 0 then out else out + a.
Definition k_clip (a lo hi : R) : R := Rmin (Rmax a lo) hi.
Definition k_copy_to_if (src dest cond : R) : R := if Req_EM_T cond 0 then dest else src.
Definition k_fill_if (mem val cond : R) : R := if Req_EM_T cond 0 then mem else val.
(** the conditions a >= 0 and b >= 0 compare pointers, which are not null (489-494) *)
Definition k_modulo (a b : R) : R := IZR (Z.rem (to_int (a + / 2)) (to_int (b + / 2))).
Definition k_act (f : act) (x : R) : R :=
  match f with
  | Sigmoid => if Rle_dec 0 x then 1 / (1 + exp (-1 * x)) else exp (1 * x) / (1 + exp (1 * x))
  | Rel => if Rlt_dec 0 x then x else 0
  | Tanh => (exp x - exp (- x)) / (exp x + exp (- x))
  | Linear => x
  | El => if Rlt_dec 0 x then x else exp x - 1
  end.
Definition k_act_deriv (f : act) (y dy : R) : R :=
  match f with
  | Sigmoid => dy * y * (1 - y)
  | Rel => if Rlt_dec 0 y then dy else 0
  | Tanh => dy * (1 - y * y)
  | Linear => dy
  | El => if Rlt_dec 0 y then dy else dy * (y + 1)
  end.
Definition k_sign (a : R) : R := (if Rlt_dec 0 a then 1 else 0) - (if Rlt_dec a 0 then 1 else 0).
(** out[i] for binarize_v (435-439), broadcast_t (441-445), index_m_by_v (483-487) *)
Definition k_binarize (v : Z -> R) (ncols : Z) (i : Z) : R := if Req_EM_T (v (Z.quot i ncols)) (IZR (Z.rem i ncols)) then 1 else 0.
Definition k_broadcast (a : Z -> R) (broadcast_dim stride : Z) (i : Z) : R := a (Z.rem i stride + Z.quot i (broadcast_dim * stride) * stride)%Z.
Definition k_index (m v : Z -> R) (ncols : Z) (i : Z) : R := m (i * ncols + to_int (v i))%Z.

(** What the CPU handler does there: numpy_handler.py:99-101 binarize_v and 202-203
    index_m_by_v (indices are truncated, count from the end if negative, and raise
    IndexError = None if out of range), 227-228 modulo_tt with np.fmod for b <> 0 *)
Definition np_index (ncols : Z) (x : R) : option Z :=
  let z := to_int x in
  (if (0 <=? z) && (z <? ncols) then Some z else if (- ncols <=? z) && (z <? 0) then Some (z + ncols) else None)%Z%bool.
Definition np_binarize (v : Z -> R) (ncols row col : Z) : option R :=
  match np_index ncols (v row) with Some z => Some (if (col =? z)%Z then 1 else 0) | None => None end.
Definition np_index_m (m v : Z -> R) (ncols row : Z) : option R :=
  match np_index ncols (v row) with Some z => Some (m (row * ncols + z)%Z) | None => None end.
Definition fmod (a b : R) : R := a - b * IZR (to_int (a / b)).

(** ** merge_tt and split_add_tt (582-625, launched in 317-323, 357-364): one thread per row,
    without a loop *)
Definition merge_row (a b : Z -> R) (n_rows a_cols b_cols row : Z) : list write :=
  (if n_rows <=? row then []
   else map (fun i => if i <? a_cols then Put 0 (row * (a_cols + b_cols) + i) (a (row * a_cols + i))
                      else Put 0 (row * (a_cols + b_cols) + i) (b (row * b_cols + i - a_cols))) (zrange (a_cols + b_cols)))%Z.
Definition split_row (x : Z -> R) (n_rows a_cols b_cols row : Z) : list write :=
  (if n_rows <=? row then []
   else map (fun i => if i <? a_cols then Inc 0 (row * a_cols + i) (x (row * (a_cols + b_cols) + i))
                      else Inc 1 (row * b_cols + i - a_cols) (x (row * (a_cols + b_cols) + i))) (zrange (a_cols + b_cols)))%Z.
Definition per_row (n_rows : Z) (row : Z -> list write) : list (list write) :=
  let '(blocks, threads) := get_gridsize n_rows in
  flat_map (fun block => map (fun thread => row (block * threads + thread)%Z) (zrange threads)) (zrange blocks).

(** ** softmax_kernel (628-677, launched in 403-408): the five parts between the barriers, for one block of 32
    threads, that is one row.  Arrays: 0 = mat, 1 = tmp, 2 = out, 3 = max_vals (shared). *)
Section Softmax.
Variables (FLT_MAX : R) (width block : Z).
Definition own (thread : Z) : list Z := filter (fun i => (i mod 32 =? thread)%Z) (zrange width).   (* i = thread, thread + 32, ... *)
Definition softmax_1 (m : memory) : list (list write) :=
  map (fun thread => [Put 3 thread (fold_left (fun cur_max i => let val := m 0%nat (block * width + i)%Z in if Rlt_dec cur_max val then val else cur_max) (own thread) (- FLT_MAX))]) (zrange 32).
Definition softmax_2 (m : memory) : list (list write) :=
  [[Put 1 block (fold_left (fun cur_max i => if Rlt_dec cur_max (m 3%nat i) then m 3%nat i else cur_max) (zrange 32) (- FLT_MAX))]].
Definition softmax_3 (m : memory) : list (list write) :=
  map (fun thread =>
    let x := fun i => exp (m 0%nat (block * width + i)%Z - m 1%nat block) in
    map (fun i => Put 2 (block * width + i) (x i)) (own thread) ++ [Put 3 thread (fold_left (fun sum i => sum + x i) (own thread) 0)]) (zrange 32).
Definition softmax_4 (m : memory) : list (list write) := [[Put 1 block (fold_left (fun sum i => sum + m 3%nat i) (zrange 32) 0)]].
Definition softmax_5 (m : memory) : list (list write) :=
  map (fun thread => map (fun i => Put 2 (block * width + i) (m 2%nat (block * width + i)%Z / m 1%nat block)) (own thread)) (zrange 32).
(** A barrier after each part.  Within a part no thread reads what another one writes, so
    all of them read the memory as it was at the barrier before. *)
Inductive phases : list (memory -> list (list write)) -> memory -> memory -> Prop :=
| no_phase m : phases [] m m
| one_phase p ps m l m' : interleaving (p m) l -> phases ps (exec l m) m' -> phases (p :: ps) m m'.
Definition softmax_block : memory -> memory -> Prop := phases [softmax_1; softmax_2; softmax_3; softmax_4; softmax_5].
End Softmax.

(** ** im2col and col2im (682-762) *)
Section ImCol.
Variables (height width channels kernel_h kernel_w pad stride_h stride_w height_col width_col : nat).
(** one index of im2col_fp32_kernel; array 0 is data_col *)
Definition im2col_body (data_im : Z -> R) (index : Z) : list write :=
  let channel_in := Z.rem index channels in
  let w_out := Z.rem (Z.quot index channels) width_col in
  let h_out := Z.quot (Z.quot index channels) width_col in
  let h_in := (h_out * stride_h - pad)%Z in
  let w_in := (w_out * stride_w - pad)%Z in
  let local_data_col := ((h_out * width_col + w_out) * channels * kernel_h * kernel_w + channel_in)%Z in
  let '(ws, _) :=
    loop kernel_h (fun i st => let h := (h_in + i)%Z in
      loop kernel_w (fun j st => let '(ws, local_data_col) := st in let w := (w_in + j)%Z in
        (ws ++ [Put 0 local_data_col (if ((0 <=? h) && (0 <=? w) && (h <? height) && (w <? width))%Z%bool then data_im ((h * width + w) * channels + channel_in)%Z else 0)],
         (local_data_col + channels)%Z)) st) ([], local_data_col) in
  ws.
(** launched in 188-200 and 236-250 *)
Definition gpu_im2col (data_im : Z -> R) : list (list write) :=
  let n := (height_col * width_col * channels)%nat in launch (get_blocks n) NUM_CUDA_THREADS n (fun index offset => (im2col_body data_im index, offset)).
(** one index of col2im_fp32_kernel; array 0 is data_im *)
Definition col2im_body (data_col : Z -> R) (index : Z) : list write :=
  let c := Z.rem index channels in
  let w := (Z.rem (Z.quot index channels) width + pad)%Z in
  let h := (Z.quot (Z.quot index channels) width + pad)%Z in
  let w_col_start := if (w <? kernel_w)%Z then 0%Z else (Z.quot (w - kernel_w) stride_w + 1)%Z in
  let w_col_end := Z.min (Z.quot w stride_w + 1) width_col in
  let h_col_start := if (h <? kernel_h)%Z then 0%Z else (Z.quot (h - kernel_h) stride_h + 1)%Z in
  let h_col_end := Z.min (Z.quot h stride_h + 1) height_col in
  let channels_col := (kernel_h * kernel_w * channels)%Z in
  let offset := ((h * kernel_w + w) * channels + c)%Z in
  let coeff_h_col := (width_col * channels_col - stride_h * kernel_w * channels)%Z in
  let coeff_w_col := (channels_col - stride_w * channels)%Z in
  let val := for_range h_col_start h_col_end (fun h_col val =>
    for_range w_col_start w_col_end (fun w_col val => val + data_col (offset + h_col * coeff_h_col + w_col * coeff_w_col)%Z) val) 0 in
  [Inc 0 index val].
(** launched in 215-226 *)
Definition gpu_col2im (data_col : Z -> R) : list (list write) :=
  let n := (height * width * channels)%nat in launch (get_blocks n) NUM_CUDA_THREADS n (fun index offset => (col2im_body data_col index, offset)).
End ImCol.

(** ** Convolution: the handler's methods around these kernels, with the layer's activation
    function (convolution_layer_2d.py:92, 110), as relations between the arguments and
    every possible result *)
Section GpuConv.
Variables (height width channels kernel_h kernel_w padding stride_h stride_w : nat).
Let HC := height_col height kernel_h padding stride_h.
Let WC := width_col width kernel_w padding stride_w.
Let K := num_kernel_params channels kernel_h kernel_w.
(** 228-257 conv2d_forward_batch for one image *)
Inductive gpu_conv_forward (a : act) (weights : mat) (bias : vec) (image : Z -> R) : mat -> Prop :=
| conv_fwd_done l :
  interleaving (gpu_im2col height width channels kernel_h kernel_w padding stride_h stride_w HC WC image) l ->
  gpu_conv_forward a weights bias image (fun r f =>
    let col := fun r q => exec l (fun _ _ => 0) 0%nat (Z.of_nat (r * K + q)) in
    k_act a (dot_mm K col (trans weights) r f + bias f)).
(** 174-226 conv2d_backward_batch; the state: in_deltas, dparams, dbias, col *)
Definition conv_state := ((nat -> Z -> R) * mat * vec * (Z -> R))%type.
Inductive gpu_conv_image (num_filters : nat) (weights : mat) (image : Z -> R) (i : nat) (out_deltas : mat) : conv_state -> conv_state -> Prop :=
| conv_bwd_step in_deltas dparams dbias col l1 l2 :
  interleaving (gpu_im2col height width channels kernel_h kernel_w padding stride_h stride_w HC WC image) l1 ->
  let col1 := exec l1 (fun _ => col) 0%nat in
  let col2 := fun k => dot_mm num_filters out_deltas weights (Z.to_nat k / K)%nat (Z.to_nat k mod K)%nat in
  interleaving (gpu_col2im height width channels kernel_h kernel_w padding stride_h stride_w HC WC col2) l2 ->
  gpu_conv_image num_filters weights image i out_deltas (in_deltas, dparams, dbias, col)
    ((fun j => if (j =? i)%nat then exec l2 (fun _ => in_deltas j) 0%nat else in_deltas j),
     dot_add_mm (HC * WC) (trans out_deltas) (fun r q => col1 (Z.of_nat (r * K + q))) dparams,
     (fun f => sum0 (HC * WC) out_deltas f + dbias f), col2).
Inductive gpu_conv_images (num_filters : nat) (weights : mat) (inputs : nat -> Z -> R) (out_deltas : nat -> mat) : nat -> conv_state -> conv_state -> Prop :=
| images_none st : gpu_conv_images num_filters weights inputs out_deltas 0 st st
| images_next n st st1 st2 : gpu_conv_images num_filters weights inputs out_deltas n st st1 ->
  gpu_conv_image num_filters weights (inputs n) n (out_deltas n) st1 st2 -> gpu_conv_images num_filters weights inputs out_deltas (S n) st st2.
Definition gpu_conv_backward (a : act) (num_images num_filters : nat) (weights : mat) (inputs : nat -> Z -> R) (outputs out_deltas : nat -> mat) (in_deltas : nat -> Z -> R)
  (result : conv_state) : Prop :=
  gpu_conv_images num_filters weights inputs (fun i r f => k_act_deriv a (outputs i r f) (out_deltas i r f)) num_images (in_deltas, (fun _ _ => 0), (fun _ => 0), (fun _ => 0)) result.
End GpuConv.

(** ** Pooling (764-905); [num] images *)
Section GpuPool.
Variables (FLT_MAX : R) (num height width channels pooled_height pooled_width kernel_h kernel_w stride_h stride_w pad : nat).
(** max_pool_fwd (764-807), launched in 302-315; arrays: 0 = top_data, 1 = mask.  The pointer
    bottom_data is moved in every iteration. *)
Definition max_fwd_body (bottom_data : Z -> R) (index offset : Z) : list write * Z :=
  let n := index in
  let c := Z.rem n channels in
  let n := Z.quot n channels in
  let wstart := (Z.rem n pooled_width * stride_w - pad)%Z in
  let n := Z.quot n pooled_width in
  let hstart := (Z.rem n pooled_height * stride_h - pad)%Z in
  let n := Z.quot n pooled_height in
  let hend := Z.min (hstart + kernel_h) height in
  let wend := Z.min (wstart + kernel_w) width in
  let hstart := Z.max hstart 0 in
  let wstart := Z.max wstart 0 in
  let offset := (offset + n * height * width * channels)%Z in
  let '(maxval, maxidx) :=
    for_range hstart hend (fun h st =>
      for_range wstart wend (fun w st => let '(maxval, maxidx) := st in
        let idx := ((h * width + w) * channels + c)%Z in
        if Rlt_dec maxval (bottom_data (offset + idx)%Z) then (bottom_data (offset + idx)%Z, idx) else (maxval, maxidx)) st) (- FLT_MAX, (-1)%Z) in
  ([Put 0 index maxval; Put 1 index (IZR (store_int 24 maxidx))] ++ (if (maxidx =? -1)%Z then [Put 0 index 0] else []), offset).
Definition gpu_maxpool_forward (bottom_data : Z -> R) : list (list write) :=
  let n := (num * pooled_height * pooled_width * channels)%nat in launch (get_blocks n) NUM_CUDA_THREADS n (max_fwd_body bottom_data).
(** max_pool_bwd (809-825), launched in 290-300; array 0 is bottom_diff *)
Definition max_bwd_body (top_diff mask : Z -> R) (index : Z) : list write :=
  if Rlt_dec (mask index) 0 then []
  else let image_id := Z.quot index (Z.quot (num * pooled_height * pooled_width * channels)%nat num) in
       [AtomicAdd 0 (image_id * Z.quot (num * height * width * channels)%nat num + to_int (mask index))%Z (top_diff index)].
Definition gpu_maxpool_backward (top_diff mask : Z -> R) : list (list write) :=
  let n := (num * pooled_height * pooled_width * channels)%nat in launch (get_blocks n) NUM_CUDA_THREADS n (fun index offset => (max_bwd_body top_diff mask index, offset)).
(** ave_pool_fwd (827-861), launched in 148-161; array 0 is top_data *)
Definition avg_fwd_body (bottom_data : Z -> R) (index offset : Z) : list write * Z :=
  let c := Z.rem index channels in
  let pw := Z.rem (Z.quot index channels) pooled_width in
  let ph := Z.rem (Z.quot (Z.quot index channels) pooled_width) pooled_height in
  let n := Z.quot (Z.quot (Z.quot index channels) pooled_width) pooled_height in
  let hstart := (ph * stride_h - pad)%Z in
  let wstart := (pw * stride_w - pad)%Z in
  let hend := Z.min (hstart + kernel_h) height in
  let wend := Z.min (wstart + kernel_w) width in
  let hstart := Z.max hstart 0 in
  let wstart := Z.max wstart 0 in
  let offset := (offset + n * height * width * channels)%Z in
  let output := for_range hstart hend (fun h output => for_range wstart wend (fun w output => output + bottom_data (offset + ((h * width + w) * channels + c))%Z) output) 0 in
  let pool_size := Z.max ((hend - hstart) * (wend - wstart)) 1 in
  ([Put 0 index (output / IZR pool_size)], offset).
Definition gpu_avgpool_forward (bottom_data : Z -> R) : list (list write) :=
  let n := (num * pooled_height * pooled_width * channels)%nat in launch (get_blocks n) NUM_CUDA_THREADS n (avg_fwd_body bottom_data).
(** ave_pool_bwd (863-905), launched in 133-146; array 0 is bottom_diff *)
Definition avg_bwd_body (top_diff : Z -> R) (index : Z) : list write :=
  let c := Z.rem index channels in
  let w := (Z.rem (Z.quot index channels) width + pad)%Z in
  let h := (Z.rem (Z.quot (Z.quot index channels) width) height + pad)%Z in
  let n := Z.quot (Z.quot (Z.quot index channels) width) height in
  let phstart := if (h <? kernel_h)%Z then 0%Z else (Z.quot (h - kernel_h) stride_h + 1)%Z in
  let phend := Z.min (Z.quot h stride_h + 1) pooled_height in
  let pwstart := if (w <? kernel_w)%Z then 0%Z else (Z.quot (w - kernel_w) stride_w + 1)%Z in
  let pwend := Z.min (Z.quot w stride_w + 1) pooled_width in
  let top_diff_slice := (n * pooled_height * pooled_width * channels + c)%Z in
  let gradient := for_range phstart phend (fun ph gradient =>
    for_range pwstart pwend (fun pw gradient =>
      let hstart := (ph * stride_h - pad)%Z in
      let wstart := (pw * stride_w - pad)%Z in
      let hend := Z.min (hstart + kernel_h) height in
      let wend := Z.min (wstart + kernel_w) width in
      let hstart := Z.max hstart 0 in
      let wstart := Z.max wstart 0 in
      let pool_size := ((hend - hstart) * (wend - wstart))%Z in
      gradient + top_diff (top_diff_slice + (ph * pooled_width + pw) * channels)%Z / IZR pool_size) gradient) 0 in
  [Inc 0 index gradient].
Definition gpu_avgpool_backward (top_diff : Z -> R) : list (list write) :=
  let n := (num * height * width * channels)%nat in launch (get_blocks n) NUM_CUDA_THREADS n (fun index offset => (avg_bwd_body top_diff index, offset)).
End GpuPool.
