(** Convolution: C45. *)
From Coq Require Import Reals Lra Lia ZArith Arith List Bool FunctionalExtensionality.
From Verif Require Import NumBase NumpyModel NumpyProps LayersModel LayersProps RecurrentBase ConvModel ConvBase.
Import ListNotations.
Open Scope R_scope.

(** The number of output rows (columns) is the number of positions at which the kernel
    fits into the padded image when moving in steps of [stride]. *)
Theorem C45_size : forall size padding kernel stride y, (0 < stride)%nat ->
  (Z.of_nat y < out_dim size padding kernel stride)%Z <-> (y * stride + kernel <= size + 2 * padding)%nat.
Proof.
  intros size padding kernel stride y Hs. unfold out_dim. set (d := (Z.of_nat size + 2 * Z.of_nat padding - Z.of_nat kernel)%Z). split; intros H.
  - assert (A := Z.mul_div_le d (Z.of_nat stride) ltac:(lia)). assert (Z.of_nat y <= d / Z.of_nat stride)%Z by lia. unfold d in *. nia.
  - assert (Z.of_nat y <= d / Z.of_nat stride)%Z by (apply Z.div_le_lower_bound; unfold d; nia). lia.
Qed.
Print Assumptions C45_size.

Section C.
Variables (height width channels : nat) (kernel_h kernel_w padding stride_h stride_w : nat).
Notation HC := (height_col height kernel_h padding stride_h).
Notation WC := (width_col width kernel_w padding stride_w).
Notation N := (height * width * channels)%nat.
Notation K := (num_kernel_params channels kernel_h kernel_w).
Notation P := (num_output_pixels height width kernel_h kernel_w padding stride_h stride_w).
Notation conv_fwd := (conv_forward height width channels kernel_h kernel_w padding stride_h stride_w).
Notation conv_bwd := (conv_backward height width channels kernel_h kernel_w padding stride_h stride_w).
Notation i2c := (im2col height width channels kernel_h kernel_w padding stride_h stride_w).
Notation c2i := (col2im height width channels kernel_h kernel_w padding stride_h stride_w).

(** The value before the activation function, at output position (y, x), filter f: the sum over
    the kernel of weight times padded input, plus the bias. *)
Definition conv_spec (weights : mat) (bias : vec) (image : nat -> R) (y x f : nat) : R :=
  bias f + Rsum kernel_h (fun i => Rsum kernel_w (fun j => Rsum channels (fun c =>
    weights f ((i * kernel_w + j) * channels + c)%nat *
    padded height width channels image (Z.of_nat (y * stride_h + i) - Z.of_nat padding)%Z (Z.of_nat (x * stride_w + j) - Z.of_nat padding)%Z c))).

Lemma conv_col image y x (g : nat -> R) : (y < HC)%nat -> (x < WC)%nat ->
  Rsum K (fun q => i2c image (fun _ => 0) ((y * WC + x) * K + q)%nat * g q)
  = Rsum kernel_h (fun i => Rsum kernel_w (fun j => Rsum channels (fun c => g ((i * kernel_w + j) * channels + c)%nat * padded height width channels image (Z.of_nat (y * stride_h + i) - Z.of_nat padding)%Z (Z.of_nat (x * stride_w + j) - Z.of_nat padding)%Z c))).
Proof.
  intros Hy Hx. unfold num_kernel_params. rewrite <- Nat.mul_assoc. rewrite Rsum_nest. apply Rsum_ext; intros i Hi. rewrite Rsum_nest. apply Rsum_ext; intros j Hj. apply Rsum_ext; intros c Hc.
  replace ((y * WC + x) * (kernel_h * (kernel_w * channels)) + (i * (kernel_w * channels) + (j * channels + c)))%nat
    with (col_pos width channels kernel_h kernel_w padding stride_w y x i j c) by (unfold col_pos; ring).
  rewrite im2col_at by assumption. rewrite Rmult_comm.
  replace (i * (kernel_w * channels) + (j * channels + c))%nat with ((i * kernel_w + j) * channels + c)%nat by ring.
  replace (- Z.of_nat padding + Z.of_nat y * Z.of_nat stride_h + Z.of_nat i)%Z with (Z.of_nat (y * stride_h + i) - Z.of_nat padding)%Z by lia.
  replace (- Z.of_nat padding + Z.of_nat x * Z.of_nat stride_w + Z.of_nat j)%Z with (Z.of_nat (x * stride_w + j) - Z.of_nat padding)%Z by lia. reflexivity.
Qed.

Theorem C45_forward : forall a weights bias image y x f, (y < HC)%nat -> (x < WC)%nat ->
  conv_fwd a weights bias image (y * WC + x)%nat f = act_f a (conv_spec weights bias image y x f).
Proof.
  intros a weights bias image y x f Hy Hx. unfold conv_forward, conv_spec. rewrite C38_inplace. f_equal. rewrite Rplus_comm. f_equal.
  unfold dot_mm, trans. exact (conv_col image y x (weights f) Hy Hx).
Qed.

(** What the loop over the images leaves *)
Definition cols (image : nat -> R) : mat := fun r q => i2c image (fun _ => 0) (r * K + q)%nat.
Definition flat_of (m : mat) : nat -> R := fun k => m (k / K)%nat (k mod K)%nat.
Lemma conv_backward_eq a n F weights inputs outputs dout din :
  let dz := fun i r f => act_deriv a (outputs i r f) (dout i r f) in
  let '(din1, dW, db) := conv_bwd a n F weights inputs outputs dout din in
  (forall i, (i < n)%nat -> din1 i = c2i (flat_of (dot_mm F (dz i) weights)) (din i)) /\
  (forall i, (n <= i)%nat -> din1 i = din i) /\
  (forall f q, (q < K)%nat -> dW f q = Rsum n (fun i => dot_mm P (trans (dz i)) (cols (inputs i)) f q)) /\
  (forall f, db f = Rsum n (fun i => sum0 P (dz i) f)).
Proof.
  cbn zeta. unfold conv_backward. set (dz := fun i r f => act_deriv a (outputs i r f) (dout i r f)).
  match goal with |- context [loop n ?b ?s] => set (body := b); set (st0 := s) end.
  assert (G : forall m, (m <= n)%nat -> let '(din1, dW, db, _) := loop m body st0 in
    (forall i, (i < m)%nat -> din1 i = c2i (flat_of (dot_mm F (dz i) weights)) (din i)) /\ (forall i, (m <= i)%nat -> din1 i = din i) /\
    (forall f q, (q < K)%nat -> dW f q = Rsum m (fun i => dot_mm P (trans (dz i)) (cols (inputs i)) f q)) /\ (forall f, db f = Rsum m (fun i => sum0 P (dz i) f))).
  { induction m as [|m IH]; intros Hm.
    - cbn. repeat split; intros; try lia; reflexivity.
    - cbn [loop]. specialize (IH ltac:(lia)). destruct (loop m body st0) as [[[din1 dW] db] fc]. destruct IH as (I1 & I2 & I3 & I4). unfold body. repeat split.
      + intros i Hi. destruct (Nat.eqb_spec i m) as [->|Nm]; [now rewrite (I2 m (le_n m)) | apply I1; lia].
      + intros i Hi. destruct (Nat.eqb_spec i m) as [->|Nm]; [lia | apply I2; lia].
      + intros f q Hq. unfold dot_add_mm. cbn [Rsum]. rewrite I3 by assumption. f_equal. unfold dot_mm. apply Rsum_ext; intros r Hr. f_equal. unfold cols.
        apply im2col_overwrites. unfold num_output_pixels in Hr. apply ltL; assumption.
      + intros f. cbn [Rsum]. now rewrite I4. }
  specialize (G n (le_n n)). destruct (loop n body st0) as [[[din1 dW] db] fc]. exact G.
Qed.

(** The backward pass gives the derivative of every weighted sum of outputs, along all
    directions in inputs, weights and biases: in_deltas are added to, the gradients set. *)
Theorem C45_gradient : forall a n F s0 (x : R -> mat) (W : R -> mat) (b : R -> vec) x' W' b' din dout,
  curve2 s0 n N x x' -> curve2 s0 F K W W' -> curve1 s0 F b b' ->
  (a = Rel -> forall i y z f, (i < n)%nat -> (y < HC)%nat -> (z < WC)%nat -> (f < F)%nat -> conv_spec (W s0) (b s0) (x s0 i) y z f <> 0) ->
  let out := fun s i => conv_fwd a (W s) (b s) (x s i) in
  let '(din1, dW, db) := conv_bwd a n F (W s0) (x s0) (out s0) dout din in
  D s0 (fun s => Rsum n (fun i => pair2 (HC * WC) F (dout i) (out s i)))
       (pair2 n N (fun i k => din1 i (Z.of_nat k) - din i (Z.of_nat k)) x' + pair2 F K dW W' + pair1 F db b').
Proof.
  intros a n F s0 x W b x' W' b' din dout Hx HW Hb HK. cbn zeta.
  assert (Q := conv_backward_eq a n F (W s0) (x s0) (fun i => conv_fwd a (W s0) (b s0) (x s0 i)) dout din). cbn zeta in Q.
  destruct (conv_bwd a n F (W s0) (x s0) (fun i => conv_fwd a (W s0) (b s0) (x s0 i)) dout din) as [[din1 dW] db]. destruct Q as (Q1 & Q2 & Q3 & Q4).
  set (dz := fun i r f => act_deriv a (conv_fwd a (W s0) (b s0) (x s0 i) r f) (dout i r f)) in *.
  set (c' := fun i : nat => cols (x' i)).
  set (l := fun i r f => Rsum K (fun q => c' i r q * W s0 f q + cols (x s0 i) r q * W' f q) + b' f).
  apply (D_eq s0 _ (Rsum n (fun i => pair2 P F (dz i) (l i)))).
  - apply (D_sum s0 n (fun i s => pair2 (HC * WC) F (dout i) (conv_fwd a (W s) (b s) (x s i))) (fun i => pair2 P F (dz i) (l i))). intros i Hi.
    apply (D_pair2 s0 (HC * WC) F (dout i) (fun s => conv_fwd a (W s) (b s) (x s i)) (fun r f => act_deriv a (conv_fwd a (W s0) (b s0) (x s0 i) r f) 1 * l i r f)).
    + intros r f Hr Hf. set (pre := fun s => dot_mm K (cols (x s i)) (trans (W s)) r f + b s f).
      assert (Hpre : D s0 pre (l i r f)).
      { apply (D_affine s0 (HC * WC) K F (fun s => cols (x s i)) W b (c' i) W' b'); try assumption. intros r1 q Hr1 Hq. unfold c', cols. apply D_im2col; try assumption. intros k Hk. now apply Hx. }
      apply (D_ext s0 (fun s => act_f a (pre s)) _ (act_deriv a (act_f a (pre s0)) 1 * l i r f)).
      * intros s. unfold conv_forward, pre. now rewrite C38_inplace.
      * unfold conv_forward, pre. now rewrite C38_inplace.
      * apply (D_act a s0 pre); [exact Hpre|]. intros ->. assert (W0 : WC <> O) by (intros E; rewrite E in Hr; lia).
        assert (Er : r = (r / WC * WC + r mod WC)%nat) by (assert (E := Nat.div_mod r WC W0); lia).
        assert (Hy : (r / WC < HC)%nat) by (apply Nat.div_lt_upper_bound; [assumption | lia]). assert (Hz : (r mod WC < WC)%nat) by (now apply Nat.mod_upper_bound).
        assert (E := HK eq_refl i _ _ f Hi Hy Hz Hf). intros Z0. apply E. unfold conv_spec. rewrite <- (conv_col (x s0 i) _ _ (W s0 f) Hy Hz), <- Er. unfold pre, dot_mm, trans, cols in Z0. lra.
    + apply pair2_ext. intros r f Hr Hf. unfold dz. rewrite (act_deriv_linear a (conv_fwd a (W s0) (b s0) (x s0 i) r f) (dout i r f)). lra.
  - transitivity (Rsum n (fun i => pair2 P K (dot_mm F (dz i) (W s0)) (c' i)) + Rsum n (fun i => pair2 F K (dot_mm P (trans (dz i)) (cols (x s0 i))) W') + Rsum n (fun i => pair1 F (sum0 P (dz i)) b')).
    { rewrite <- !Rsum_plus. apply Rsum_ext; intros i Hi. unfold l. apply affine_adjoint. }
    f_equal; [f_equal|].
    + apply Rsum_ext; intros i Hi. transitivity (Rsum N (fun k => (c2i (flat_of (dot_mm F (dz i) (W s0))) (din i) (Z.of_nat k) - din i (Z.of_nat k)) * x' i k)); [|now rewrite (Q1 i Hi)].
      rewrite col2im_adjoint. apply Rsum_ext; intros r Hr. apply Rsum_ext; intros q Hq. unfold flat_of, c', cols. rewrite divL, modL by assumption. reflexivity.
    + unfold pair2. rewrite Rsum_swap. apply Rsum_ext; intros f Hf. rewrite Rsum_swap. apply Rsum_ext; intros q Hq. rewrite (Q3 f q Hq), <- Rsum_scal_r. reflexivity.
    + unfold pair1. rewrite Rsum_swap. apply Rsum_ext; intros f Hf. rewrite Q4, <- Rsum_scal_r. reflexivity.
Qed.
(** No other image's deltas are touched. *)
Theorem C45_other_images : forall a n F W inputs outputs dout din i, (n <= i)%nat -> fst (fst (conv_bwd a n F W inputs outputs dout din)) i = din i.
Proof.
  intros a n F W inputs outputs dout din i Hi. assert (Q := conv_backward_eq a n F W inputs outputs dout din). cbn zeta in Q. destruct (conv_bwd a n F W inputs outputs dout din) as [[din1 dW] db]. now apply Q.
Qed.
End C.
Print Assumptions C45_forward.
Print Assumptions C45_gradient.
Print Assumptions C45_other_images.

(** A 2 x 3 image with one channel, a 2 x 2 kernel, padding 1, stride 1 x 2, one filter:
    output 3 x 2. *)
Example C45_case :
  let image := fun k => INR (S k) in
  let W : mat := fun _ q => nth q [1; 10; 100; 1000] 0 in
  let out := conv_forward 2 3 1 2 2 1 1 2 Linear W (fun _ => 7) image in
  let '(din, dW, db) := conv_backward 2 3 1 2 2 1 1 2 Linear 1 1 W (fun _ => image) (fun _ => out) (fun _ r _ => nth r [1; 0; 0; 2; 0; 3] 0) (fun _ _ => 5) in
  height_col 2 2 1 1 = 3%nat /\ width_col 3 2 1 2 = 2%nat /\
  out O O = 1007 /\ out 3%nat O = 2 + 30 + 500 + 6000 + 7 /\
  (din O 0%Z = 1005 /\ din O 1%Z = 7 /\ din O 2%Z = 25 /\ din O 5%Z = 2000 + 30 + 5) /\ dW O O = 2 * 2 + 3 * 5 /\ dW O 3%nat = 1 + 2 * 6 /\ db O = 6.
Proof.
  cbv -[Rplus Rmult Ropp IZR INR Rminus]. repeat split; cbn [INR]; try lra.
Qed.
