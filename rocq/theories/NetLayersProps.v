(** The modelled layers satisfy the requirement of C49; networks made of them. *)
From Coq Require Import Reals Lra Lia ZArith Arith List FunctionalExtensionality.
From Verif Require Import NumBase NumpyModel NumpyProps LayersModel LayersProps LossProps BatchNormProps RecurrentModel RecurrentBase RecurrentProps LstmProps ClockLstmModel ClockLstmProps ConvModel ConvBase ConvProps PoolModel PoolProps NetworkModel NetworkProps NetLayersModel.
Import ListNotations.
Open Scope R_scope.

(** ** Layout *)
Lemma idx_lt r n i j : (i < r)%nat -> (j < n)%nat -> (i * n + j < r * n)%nat.
Proof. intros. nia. Qed.
Lemma mat_vec n m i j : (j < n)%nat -> mat_of n (vec_of n m) i j = m i j.
Proof.
  intros Hj. unfold mat_of, vec_of. rewrite Nat.add_comm, Nat.div_add, Nat.mod_add, Nat.div_small, Nat.mod_small by lia. reflexivity.
Qed.
Lemma pair_vm r n d v : pair1 (r * n) (vec_of n d) v = pair2 r n d (mat_of n v).
Proof.
  unfold pair1, pair2. rewrite <- (Rsum_flat r n (fun i j => d i j * mat_of n v i j)). apply Rsum_ext. intros k Hk. unfold vec_of, mat_of. f_equal. f_equal.
  rewrite (Nat.mul_comm (k / n)). apply Nat.div_mod. intros ->. lia.
Qed.
Lemma pair_mv r n v m : pair1 (r * n) v (vec_of n m) = pair2 r n (mat_of n v) m.
Proof.
  transitivity (pair1 (r * n) (vec_of n m) v); [apply Rsum_ext; intros; lra|]. rewrite pair_vm. apply pair2_ext. intros. lra.
Qed.
Lemma flat_seq T B n v r j : (r < T * B)%nat -> flat B (seq_of B n v) r j = mat_of n v r j.
Proof. intros Hr. unfold flat, seq_of. f_equal. rewrite (Nat.mul_comm (r / B)). symmetry. apply Nat.div_mod. intros ->. lia. Qed.
Lemma pair_seq T B n v s : pair2 (T * B) n (mat_of n v) (flat B s) = Rsum T (fun t => pair2 B n (seq_of B n v t) (s t)).
Proof. rewrite <- pair2_flat. apply pair2_ext. intros r j Hr Hj. now rewrite (flat_seq T). Qed.
Lemma pair_seq_r T B n d v : pair2 (T * B) n d (mat_of n v) = pair2 (T * B) n d (flat B (seq_of B n v)).
Proof. apply pair2_ext. intros r j Hr Hj. now rewrite (flat_seq T). Qed.
Lemma pair1_cat a b u v w : pair1 (a + b) (cat a u v) w = pair1 a u w + pair1 b v (shift a w).
Proof.
  unfold pair1. rewrite Rsum_app. f_equal; apply Rsum_ext; intros k Hk; unfold cat, shift.
  - now rewrite (proj2 (Nat.ltb_lt k a) Hk).
  - destruct (Nat.ltb_spec (a + k) a); [lia|]. do 2 f_equal. lia.
Qed.
Lemma curve_mat s0 r n (x : R -> vec) x' : curve1 s0 (r * n) x x' -> curve2 s0 r n (fun s => mat_of n (x s)) (mat_of n x').
Proof. intros H i j Hi Hj. apply H. now apply idx_lt. Qed.
Lemma curve_fst s0 a b (x : R -> vec) x' : curve1 s0 (a + b) x x' -> curve1 s0 a x x'.
Proof. intros H k Hk. apply H. lia. Qed.
Lemma curve_snd s0 a b (x : R -> vec) x' : curve1 s0 (a + b) x x' -> curve1 s0 b (fun s => shift a (x s)) (shift a x').
Proof. intros H k Hk. apply (H (a + k)%nat). lia. Qed.
Lemma curve_seq s0 T B n (x : R -> vec) x' : curve1 s0 (T * B * n) x x' -> curve3 s0 T B n (fun s => seq_of B n (x s)) (seq_of B n x').
Proof. intros H t Ht i j Hi Hj. apply H. apply idx_lt; [now apply idx_lt | assumption]. Qed.
Lemma pair2_0 r n d m : pair2 r n (msub d zeros) m = pair2 r n d m.
Proof. apply pair2_ext. intros. unfold msub, zeros. lra. Qed.
Lemma pair2_mat0 r n d m : pair2 r n (msub d (mat_of n (fun _ => 0))) m = pair2 r n d m.
Proof. apply pair2_ext. intros. unfold msub, mat_of. lra. Qed.
Lemma pair1_0 n d m : pair1 n (fun j => d j - 0) m = pair1 n d m.
Proof. apply Rsum_ext. intros. lra. Qed.
Lemma cut_mat r n v i j : (i < r)%nat -> (j < n)%nat -> mat_of n (cut (r * n) v) i j = mat_of n v i j.
Proof. intros Hi Hj. unfold mat_of, cut. now rewrite (proj2 (Nat.ltb_lt _ _) (idx_lt r n i j Hi Hj)). Qed.
(** images *)
Lemma pair_img h w c (d : img) u : pair1 (h * w * c) (of_img w c d) u =
  Rsum c (fun k => Rsum h (fun y => Rsum w (fun x => d (Z.of_nat y) (Z.of_nat x) k * img_of w c u (Z.of_nat y) (Z.of_nat x) k))).
Proof.
  unfold pair1. rewrite Rsum_nest, Rsum_nest.
  transitivity (Rsum h (fun y => Rsum c (fun k => Rsum w (fun x => d (Z.of_nat y) (Z.of_nat x) k * img_of w c u (Z.of_nat y) (Z.of_nat x) k)))); [|apply Rsum_swap].
  apply Rsum_ext; intros y Hy. rewrite Rsum_swap. apply Rsum_ext; intros k Hk. apply Rsum_ext; intros x Hx. unfold of_img, img_of.
  rewrite divL, modL, divL, modL, !Nat2Z.id by assumption. reflexivity.
Qed.
Lemma pair_out g v m : pair1 (g_oh g * g_ow g * g_c g) v (of_out g m) =
  Rsum (g_c g) (fun k => Rsum (g_oh g) (fun y => Rsum (g_ow g) (fun x => out_of g v y x k * m y x k))).
Proof.
  transitivity (pair1 (g_oh g * g_ow g * g_c g) (of_out g m) v); [apply Rsum_ext; intros; lra|]. unfold of_out. rewrite pair_img.
  apply Rsum_ext; intros k Hk. apply Rsum_ext; intros y Hy. apply Rsum_ext; intros x Hx. rewrite !Nat2Z.id. unfold out_of. lra.
Qed.

(** ** Where the derivatives exist and the loss layers do not clip *)
Definition k_ok (k : kind) (p x : vec) : Prop :=
  match k with
  | KFullyConnected a rows nin nout => a = Rel -> forall i j, (i < rows)%nat -> (j < nout)%nat ->
      Rsum nin (fun l => mat_of nin x i l * mat_of nin p j l) + p (nout * nin + j)%nat <> 0
  | KElementwise a rows cols => a = Rel -> forall i j, (i < rows)%nat -> (j < cols)%nat -> mat_of cols x i j <> 0
  | KSoftmaxCE rows n t => forall i, (i < rows)%nat -> (t i <= n)%nat /\ 1 / 1000000 < softmax n (mat_of (S n) x i) (t i)
  | KSigmoidCE rows cols t => forall i j, (i < rows)%nat -> (j < cols)%nat ->
      let q := act_f Sigmoid (mat_of cols x i j) in (t i j = 0 \/ 1 / 1000000 < q) /\ (t i j = 1 \/ 1 / 1000000 < 1 - q)
  | KBatchNorm rows cols decay epsilon mu sigma sb => (1 <= rows)%nat /\ 0 < epsilon
  | KRecurrent a nin n T B ctx => a = Rel -> forall t i j, (t < S T)%nat -> (i < B)%nat -> (j < n)%nat ->
      let X := seq_of B nin x in let W := mat_of nin p in let U := mat_of n (shift (n * nin) p) in let b := shift (n * n) (shift (n * nin) p) in
      Rsum nin (fun l => X t i l * W j l) + b j + Rsum n (fun l => rec_forward a nin n (S T) W U b X ctx (prev (S T) t) i l * U j l) <> 0
  | KClockwork a nin n timing T B ctx => a = Rel -> forall t i j, (t < S T)%nat -> (i < B)%nat -> (j < n)%nat ->
      let X := seq_of B nin x in let W := mat_of nin p in let U := mat_of n (shift (n * nin) p) in let b := shift (n * n) (shift (n * nin) p) in
      Rsum nin (fun l => X t i l * W j l) + b j + Rsum n (fun l => cw_forward a nin n timing (S T) W U b X ctx (prev (S T) t) i l * U j l) <> 0
  | KLstm a nin n T B => rel_ok a nin n (S T) B (lstm_of nin n p) (seq_of B nin x) zeros zeros
  | KClockworkLstm a nin n timing T B => (forall j, (j < n)%nat -> timing j <> 0) /\ cl_rel_ok a nin n timing (S T) B (lstm_of nin n p) (seq_of B nin x) zeros zeros
  | KDropout drop_prob rows cols mask => drop_prob = 0
  | KL1Decay rows cols => forall i j, (i < rows)%nat -> (j < cols)%nat -> mat_of cols x i j <> 0
  | KBinomialCE rows cols t => forall i j, (i < rows)%nat -> (j < cols)%nat -> 1 / 1000000 <= mat_of cols x i j - mat_of cols x i j * mat_of cols x i j
  | KConvolution a g images filters => a = Rel -> forall i y z f, (i < images)%nat -> (y < g_oh g)%nat -> (z < g_ow g)%nat -> (f < filters)%nat ->
      conv_spec (g_h g) (g_w g) (g_c g) (g_kh g) (g_kw g) (g_pad g) (g_sh g) (g_sw g) (mat_of (g_kernel g) p) (shift (filters * g_kernel g) p) (mat_of (g_cells g) x i) y z f <> 0
  | KMaxPool precision min_value g images =>
      (Z.of_nat (g_cells g) <= 2 ^ precision)%Z /\ (1 <= precision)%Z /\
      let window := in_window (g_h g) (g_w g) (g_kh g) (g_kw g) (g_pad g) (g_sh g) (g_sw g) in
      forall i, (i < images)%nat -> let u := img_of (g_w g) (g_c g) (mat_of (g_cells g) x i) in
      forall y_out x_out c, (y_out < g_oh g)%nat -> (x_out < g_ow g)%nat -> (c < g_c g)%nat ->
        (forall y x, ~ window y_out x_out y x) \/
        exists y x, window y_out x_out y x /\ min_value < u y x c /\ forall y' x', window y_out x_out y' x' -> y' = y /\ x' = x \/ u y' x' c < u y x c
  | _ => True
  end.

(** ** Backward passes depend on the outputs inside the buffers only *)
Lemma rec_dHa_ext a n U y y' dout T B : (forall t i j, (t <= T)%nat -> (i < B)%nat -> (j < n)%nat -> y t i j = y' t i j) ->
  forall k i j, (k <= T)%nat -> (i < B)%nat -> (j < n)%nat -> rec_dHa a n U y dout T k i j = rec_dHa a n U y' dout T k i j.
Proof.
  intros H k. induction k as [|k IH]; intros i j Hk Hi Hj; cbn [rec_dHa].
  - now rewrite H by lia.
  - rewrite H by lia. f_equal. unfold dot_add_mm, dot_mm. f_equal. apply Rsum_ext. intros l Hl. rewrite IH by lia. reflexivity.
Qed.
Lemma cw_d_ext a n timing U y y' dout T B : (forall t i j, (t <= T)%nat -> (i < B)%nat -> (j < n)%nat -> y t i j = y' t i j) ->
  forall k i j, (k <= T)%nat -> (i < B)%nat -> (j < n)%nat ->
  fst (cw_d a n timing U y dout T k) i j = fst (cw_d a n timing U y' dout T k) i j /\ snd (cw_d a n timing U y dout T k) i j = snd (cw_d a n timing U y' dout T k) i j.
Proof.
  intros H k. induction k as [|k IH]; intros i j Hk Hi Hj; cbn [cw_d].
  - cbn [fst snd]. now rewrite H by lia.
  - destruct (cw_d a n timing U y dout T k) as [A B1] eqn:E. destruct (cw_d a n timing U y' dout T k) as [A' B1'] eqn:E'. cbn [fst snd] in *.
    assert (X : forall i j, (i < B)%nat -> (j < n)%nat -> A i j = A' i j /\ B1 i j = B1' i j) by (intros i0 j0 Hi0 Hj0; apply IH; lia).
    assert (Q : dot_add_mm n (fun i0 j0 => if stays (S (T - S k)) (timing j0) then 0 else A i0 j0) U
        (fun i0 j0 => if stays (S (T - S k)) (timing j0) then dout (T - S k)%nat i0 j0 + B1 i0 j0 else dout (T - S k)%nat i0 j0) i j =
      dot_add_mm n (fun i0 j0 => if stays (S (T - S k)) (timing j0) then 0 else A' i0 j0) U
        (fun i0 j0 => if stays (S (T - S k)) (timing j0) then dout (T - S k)%nat i0 j0 + B1' i0 j0 else dout (T - S k)%nat i0 j0) i j).
    { unfold dot_add_mm, dot_mm. f_equal.
      - destruct (stays _ _); [|reflexivity]. now rewrite (proj2 (X i j Hi Hj)).
      - apply Rsum_ext. intros l Hl. destruct (stays _ _); [reflexivity|]. now rewrite (proj1 (X i l Hi Hl)). }
    split; [|exact Q]. rewrite Q, H by lia. reflexivity.
Qed.
(** The part of the backward passes of Recurrent and Clockwork after the loop *)
Definition core (T1 B n : nat) (W : mat) (x : seq) (dHa y : seq) (din dW dR : mat) (db : vec) : mat * mat * mat * vec :=
  (dot_add_mm n (flat B dHa) W din, dot_add_mm (T1 * B) (trans (flat B dHa)) (flat B x) dW,
   dot_add_mm B (trans (dHa O)) (y T1) (dot_add_mm ((T1 - 1) * B) (trans (flat B (tail dHa))) (flat B y) dR),
   fun j => db j + sum0 (T1 * B) (flat B dHa) j).
Lemma flat_lt T1 B r : (r < T1 * B)%nat -> (r / B < T1)%nat /\ (r mod B < B)%nat.
Proof. intros H. assert (B <> O) by (intros ->; lia). split; [apply Nat.div_lt_upper_bound; lia | now apply Nat.mod_upper_bound]. Qed.
Lemma core_ext T B n nin W x dHa dHa' y y' din dW dR db W' R' b' x' :
  (forall t i j, (t < S T)%nat -> (i < B)%nat -> (j < n)%nat -> dHa t i j = dHa' t i j) ->
  (forall t i j, (t <= S T)%nat -> (i < B)%nat -> (j < n)%nat -> y t i j = y' t i j) ->
  let '(d1, w1, r1, b1) := core (S T) B n W x dHa y din dW dR db in
  let '(d2, w2, r2, b2) := core (S T) B n W x dHa' y' din dW dR db in
  pair2 (S T * B) nin d1 x' = pair2 (S T * B) nin d2 x' /\ pair2 n nin w1 W' = pair2 n nin w2 W' /\ pair2 n n r1 R' = pair2 n n r2 R' /\ pair1 n b1 b' = pair1 n b2 b'.
Proof.
  intros Hd Hy. unfold core. repeat split.
  - apply pair2_ext. intros i j Hi Hj. f_equal. unfold dot_add_mm, dot_mm, flat. f_equal. apply Rsum_ext. intros k Hk. destruct (flat_lt _ _ _ Hi). now rewrite Hd.
  - apply pair2_ext. intros i j Hi Hj. f_equal. unfold dot_add_mm, dot_mm, flat, trans. f_equal. apply Rsum_ext. intros k Hk. destruct (flat_lt _ _ _ Hk). now rewrite Hd.
  - apply pair2_ext. intros i j Hi Hj. f_equal. unfold dot_add_mm, dot_mm, trans. f_equal; [f_equal|].
    + apply Rsum_ext. intros k Hk. replace (S T - 1)%nat with T in Hk by lia. destruct (flat_lt _ _ _ Hk). unfold flat, tail. rewrite Hd, Hy by lia. reflexivity.
    + apply Rsum_ext. intros k Hk. rewrite Hd, Hy by lia. reflexivity.
  - apply Rsum_ext. intros j Hj. f_equal. f_equal. unfold sum0, flat. apply Rsum_ext. intros k Hk. destruct (flat_lt _ _ _ Hk). now rewrite Hd.
Qed.
Lemma outputs_cut T B n (s : seq) ctx t i j : (forall i j, s (S T) i j = ctx i j) -> (t <= S T)%nat -> (i < B)%nat -> (j < n)%nat ->
  (if (t <? S T)%nat then seq_of B n (cut (S T * B * n) (vec_of n (flat B s))) t else ctx) i j = s t i j.
Proof.
  intros Hc Ht Hi Hj. destruct (Nat.ltb_spec t (S T)) as [L|L].
  - unfold seq_of. rewrite (cut_mat (S T * B) n) by (auto; now apply idx_lt). rewrite mat_vec by assumption. unfold flat.
    rewrite Nat.add_comm, Nat.div_add, Nat.mod_add, Nat.div_small, Nat.mod_small by lia. reflexivity.
  - replace t with (S T) by lia. now rewrite Hc.
Qed.

(** ** C49 for the modelled layers *)
Lemma D_plus0 s0 f l : D s0 f l -> D s0 (fun s => f s + 0) l.
Proof. intros H. apply (D_ext s0 f _ l); [intros; lra | reflexivity | exact H]. Qed.
Lemma lstm_curve s0 nin n (p : R -> vec) p' : curve1 s0 (lstm_np nin n) p p' -> par_curve s0 nin n (fun s => lstm_of nin n (p s)) (lstm_of nin n p').
Proof.
  intros H. unfold lstm_np in H.
  assert (H1 := curve_snd _ _ _ _ _ H). assert (H2 := curve_snd _ _ _ _ _ H1). assert (H3 := curve_snd _ _ _ _ _ H2). assert (H4 := curve_snd _ _ _ _ _ H3).
  assert (H5 := curve_snd _ _ _ _ _ H4). assert (H6 := curve_snd _ _ _ _ _ H5). assert (H7 := curve_snd _ _ _ _ _ H6). assert (H8 := curve_snd _ _ _ _ _ H7).
  assert (H9 := curve_snd _ _ _ _ _ H8). assert (H10 := curve_snd _ _ _ _ _ H9). assert (H11 := curve_snd _ _ _ _ _ H10). assert (H12 := curve_snd _ _ _ _ _ H11).
  assert (H13 := curve_snd _ _ _ _ _ H12). assert (H14 := curve_snd _ _ _ _ _ H13).
  constructor; cbn [lstm_of pWz pWi pWf pWo ppi ppf ppo pRz pRi pRf pRo pbz pbi pbf pbo].
  - exact (curve_mat _ _ _ _ _ (curve_fst _ _ _ _ _ H)).
  - exact (curve_mat _ _ _ _ _ (curve_fst _ _ _ _ _ H1)).
  - exact (curve_mat _ _ _ _ _ (curve_fst _ _ _ _ _ H2)).
  - exact (curve_mat _ _ _ _ _ (curve_fst _ _ _ _ _ H3)).
  - exact (curve_fst _ _ _ _ _ H4).
  - exact (curve_fst _ _ _ _ _ H5).
  - exact (curve_fst _ _ _ _ _ H6).
  - exact (curve_mat _ _ _ _ _ (curve_fst _ _ _ _ _ H7)).
  - exact (curve_mat _ _ _ _ _ (curve_fst _ _ _ _ _ H8)).
  - exact (curve_mat _ _ _ _ _ (curve_fst _ _ _ _ _ H9)).
  - exact (curve_mat _ _ _ _ _ (curve_fst _ _ _ _ _ H10)).
  - exact (curve_fst _ _ _ _ _ H11).
  - exact (curve_fst _ _ _ _ _ H12).
  - exact (curve_fst _ _ _ _ _ H13).
  - exact H14.
Qed.
Lemma lstm_pair nin n g p' : pair1 (lstm_np nin n) (lstm_to nin n g) p' = par_pair nin n g (lstm_of nin n p').
Proof.
  unfold lstm_np, lstm_to, par_pair. cbn [lstm_of pWz pWi pWf pWo ppi ppf ppo pRz pRi pRf pRo pbz pbi pbf pbo]. rewrite !pair1_cat, !pair_vm. lra.
Qed.
Lemma lstm_pair_sub nin n g p' : par_pair nin n (par_sub g (lstm_of nin n (fun _ => 0))) p' = par_pair nin n g p'.
Proof.
  unfold par_pair, par_sub. cbn [lstm_of pWz pWi pWf pWo ppi ppf ppo pRz pRi pRf pRo pbz pbi pbf pbo].
  assert (A : forall r c d m, pair2 r c (msub d (mat_of c (fun _ => 0))) m = pair2 r c d m) by (intros; apply pair2_mat0).
  assert (B : forall d m, pair1 n (vsub d (fun _ => 0)) m = pair1 n d m) by (intros; apply pair1_0).
  change (shift (n * nin) (fun _ => 0)) with (fun _ : nat => 0). change (shift n (fun _ => 0)) with (fun _ : nat => 0). change (shift (n * n) (fun _ => 0)) with (fun _ : nat => 0).
  unfold shift. rewrite !A, !B. reflexivity.
Qed.

(** The gradients of a convolution only use the outputs inside the buffer *)
Lemma conv_ext g a images filters W (inputs : mat) (o1 o2 : nat -> mat) dout x' W' b' :
  (forall i r f, (i < images)%nat -> (r < g_oh g * g_ow g)%nat -> (f < filters)%nat -> o1 i r f = o2 i r f) ->
  let bwd o := conv_backward (g_h g) (g_w g) (g_c g) (g_kh g) (g_kw g) (g_pad g) (g_sh g) (g_sw g) a images filters W inputs o dout (fun _ _ => 0) in
  let '(d1, w1, b1) := bwd o1 in let '(d2, w2, b2) := bwd o2 in
  pair2 images (g_cells g) (fun i k => d1 i (Z.of_nat k)) x' = pair2 images (g_cells g) (fun i k => d2 i (Z.of_nat k)) x' /\
  pair2 filters (g_kernel g) w1 W' = pair2 filters (g_kernel g) w2 W' /\ pair1 filters b1 b' = pair1 filters b2 b'.
Proof.
  intros H bwd. unfold bwd.
  assert (Q1 := conv_backward_eq (g_h g) (g_w g) (g_c g) (g_kh g) (g_kw g) (g_pad g) (g_sh g) (g_sw g) a images filters W inputs o1 dout (fun _ _ => 0)).
  assert (Q2 := conv_backward_eq (g_h g) (g_w g) (g_c g) (g_kh g) (g_kw g) (g_pad g) (g_sh g) (g_sw g) a images filters W inputs o2 dout (fun _ _ => 0)).
  cbv zeta in Q1, Q2. destruct (conv_backward _ _ _ _ _ _ _ _ _ _ _ _ _ o1 _ _) as [[d1 w1] b1]. destruct (conv_backward _ _ _ _ _ _ _ _ _ _ _ _ _ o2 _ _) as [[d2 w2] b2].
  destruct Q1 as (A1 & _ & A3 & A4). destruct Q2 as (B1 & _ & B3 & B4). split; [|split].
  - unfold pair2. apply Rsum_ext; intros i Hi. rewrite (A1 i Hi), (B1 i Hi).
    assert (C : forall col, Rsum (g_cells g) (fun k => col2im (g_h g) (g_w g) (g_c g) (g_kh g) (g_kw g) (g_pad g) (g_sh g) (g_sw g) col (fun _ => 0) (Z.of_nat k) * x' i k) =
                 Rsum (g_cells g) (fun k => (col2im (g_h g) (g_w g) (g_c g) (g_kh g) (g_kw g) (g_pad g) (g_sh g) (g_sw g) col (fun _ => 0) (Z.of_nat k) - 0) * x' i k))
      by (intros col; apply Rsum_ext; intros; lra).
    rewrite !C. unfold g_cells. rewrite !(col2im_adjoint _ _ _ _ _ _ _ _ _ (fun _ => 0)). apply Rsum_ext; intros r Hr. apply Rsum_ext; intros q Hq. f_equal.
    unfold flat_of. rewrite divL, modL by assumption. unfold dot_mm. apply Rsum_ext; intros f Hf. rewrite (H i r f Hi Hr Hf). reflexivity.
  - apply pair2_ext. intros f q Hf Hq. f_equal. rewrite A3, B3 by exact Hq. apply Rsum_ext; intros i Hi. unfold dot_mm, trans. apply Rsum_ext; intros r Hr. rewrite (H i r f Hi Hr Hf). reflexivity.
  - unfold pair1. apply Rsum_ext; intros f Hf. f_equal. rewrite A4, B4. apply Rsum_ext; intros i Hi. unfold sum0. apply Rsum_ext; intros r Hr. rewrite (H i r f Hi Hr Hf). reflexivity.
Qed.

Theorem C49_layers : forall k ins outs p x, length ins = n_in k -> length outs = n_out k -> k_ok k p x -> back_propagates (layer_of k ins outs) p x.
Proof.
  intros k ins outs p0 x0 Li Lo OK s0 p x p' x' dy <- <- Hp Hx. unfold layer_of in *. cbn [l_fwd l_out l_in l_np l_loss l_bwd fst] in *. rewrite Li, Lo in *. clear Li Lo.
  destruct k as [a rows nin nout|a rows cols|rows cols|rows n1 n2|bc rows cols m|rows cols|rows cols t|rows n t|rows cols t|rows cols decay epsilon mu sigma sb|a nin n T B ctx|a nin n timing T B ctx|a nin n T B|rows cols imp batch
    |a nin n timing T B|rows cols|drop rows cols mask|rows cols|rows cols|rows cols t|a g images filters|precision min_value g images|g images];
    cbn [n_in n_out n_par k_fwd k_loss k_bwd k_ok fst] in *.
  - (* FullyConnected *)
    assert (E := C41_fully_connected rows nin nout a s0 (fun s => mat_of nin (x s)) (fun s => mat_of nin (p s)) (fun s => shift (nout * nin) (p s)) (mat_of nin x') (mat_of nin p') (shift (nout * nin) p')
      zeros (mat_of nout dy) (mat_of nin (fun _ => 0)) (shift (nout * nin) (fun _ => 0)) (curve_mat _ _ _ _ _ Hx) (curve_mat _ _ _ _ _ (curve_fst _ _ _ _ _ Hp)) (curve_snd _ _ _ _ _ Hp) OK).
    cbv zeta in E. unfold fc_backward in *. cbn [b_din b_grad].
    apply D_plus0. rewrite pair1_cat, !pair_vm. rewrite pair2_0 in E.
    set (y := fc_forward nin a (mat_of nin (p s0)) (shift (nout * nin) (p s0)) (mat_of nin (x s0))) in *.
    assert (Ey : forall i j, (i < rows)%nat -> (j < nout)%nat -> mat_of nout (cut (rows * nout) (vec_of nout y)) i j = y i j) by (intros i j Hi Hj; rewrite cut_mat, mat_vec by assumption; reflexivity).
    match type of E with D _ _ (pair2 _ _ (dot_add_mm _ ?o _ _) _ + _ + _) => set (o1 := o) in * end.
    match goal with |- D _ _ (pair2 _ _ (dot_add_mm _ ?o _ _) _ + _) => set (o2 := o) in * end.
    assert (Eo : forall i j, (i < rows)%nat -> (j < nout)%nat -> o2 i j = o1 i j) by (intros i j Hi Hj; unfold o1, o2; now rewrite Ey).
    apply (D_ext s0 (fun s => pair2 rows nout (mat_of nout dy) (fc_forward nin a (mat_of nin (p s)) (shift (nout * nin) (p s)) (mat_of nin (x s)))) _ (pair2 rows nin (dot_add_mm nout o1 (mat_of nin (p s0)) zeros) (mat_of nin x') + pair2 nout nin (dot_mm rows (trans o1) (mat_of nin (x s0))) (mat_of nin p') + pair1 nout (sum0 rows o1) (shift (nout * nin) p')));
      [intros s; symmetry; apply pair_mv | | exact E].
    rewrite Rplus_assoc. f_equal; [|f_equal].
    + apply pair2_ext. intros i j Hi Hj. f_equal. unfold dot_add_mm, dot_mm. f_equal. apply Rsum_ext. intros l Hl. now rewrite Eo.
    + apply pair2_ext. intros i j Hi Hj. f_equal. unfold dot_mm, trans. apply Rsum_ext. intros l Hl. now rewrite Eo.
    + apply Rsum_ext. intros j Hj. f_equal. unfold sum0. apply Rsum_ext. intros l Hl. now rewrite Eo.
  - (* Elementwise *)
    assert (E := C41_elementwise a rows cols s0 (fun s => mat_of cols (x s)) (mat_of cols x') zeros (mat_of cols dy) (curve_mat _ _ _ _ _ Hx) OK).
    cbn [b_din b_grad]. apply D_plus0. rewrite pair_vm. unfold pair1 at 2. cbn [Rsum]. rewrite Rplus_0_r. rewrite pair2_0 in E.
    apply (D_ext s0 (fun s => pair2 rows cols (mat_of cols dy) (elementwise_forward a (mat_of cols (x s)))) _ _ _ (fun s => eq_sym (pair_mv _ _ _ _)) (eq_refl _)).
    apply (D_eq _ _ _ _ E). apply pair2_ext. intros i j Hi Hj. f_equal. unfold elementwise_backward. rewrite cut_mat, mat_vec by assumption. reflexivity.
  - (* Highway *)
    assert (Hx2 := curve_snd _ _ _ _ _ Hx).
    assert (E := C41_highway rows cols s0 _ _ _ _ _ _ zeros zeros zeros (mat_of cols dy) (curve_mat _ _ _ _ _ (curve_fst _ _ _ _ _ Hx)) (curve_mat _ _ _ _ _ (curve_fst _ _ _ _ _ Hx2)) (curve_mat _ _ _ _ _ (curve_snd _ _ _ _ _ Hx2))).
    unfold highway_backward in *. cbn [b_din b_grad]. apply D_plus0. rewrite !pair1_cat, !pair_vm. unfold pair1 at 2. cbn [Rsum]. rewrite !pair2_0 in E.
    apply (D_ext s0 _ _ _ _ (fun s => eq_sym (pair_mv _ _ _ _)) (eq_refl _)). apply (D_eq _ _ _ _ E). lra.
  - (* Merge *)
    assert (E := C41_merge rows n1 n2 s0 _ _ _ _ zeros zeros (mat_of (n1 + n2) dy) (curve_mat _ _ _ _ _ (curve_fst _ _ _ _ _ Hx)) (curve_mat _ _ _ _ _ (curve_snd _ _ _ _ _ Hx))).
    unfold merge_backward in *. cbn [b_din b_grad]. apply D_plus0. rewrite !pair1_cat, !pair_vm. unfold pair1 at 2. cbn [Rsum]. rewrite !pair2_0 in E.
    apply (D_ext s0 _ _ _ _ (fun s => eq_sym (pair_mv _ _ _ _)) (eq_refl _)). apply (D_eq _ _ _ _ E). lra.
  - (* Mask *)
    assert (E := C41_mask bc rows cols s0 _ _ m zeros (mat_of cols dy) (curve_mat _ _ _ _ _ Hx)).
    cbn [b_din b_grad]. apply D_plus0. rewrite !pair_vm. unfold pair1 at 2. cbn [Rsum]. rewrite !pair2_0 in E.
    apply (D_ext s0 _ _ _ _ (fun s => eq_sym (pair_mv _ _ _ _)) (eq_refl _)). apply (D_eq _ _ _ _ E). lra.
  - (* SquaredDifference *)
    assert (E := C41_squared_difference rows cols s0 _ _ _ _ zeros zeros (mat_of cols dy) (curve_mat _ _ _ _ _ (curve_fst _ _ _ _ _ Hx)) (curve_mat _ _ _ _ _ (curve_snd _ _ _ _ _ Hx))).
    unfold sqdiff_backward in *. cbn [b_din b_grad]. apply D_plus0. rewrite !pair1_cat, !pair_vm. unfold pair1 at 2. cbn [Rsum]. rewrite !pair2_0 in E.
    apply (D_ext s0 _ _ _ _ (fun s => eq_sym (pair_mv _ _ _ _)) (eq_refl _)). apply (D_eq _ _ _ _ E). lra.
  - (* SquaredError *)
    destruct (C41_squared_error rows cols s0 _ _ t zeros (mat_of cols dy) (curve_mat _ _ _ _ _ Hx)) as [E _].
    cbn [b_din b_grad]. apply D_plus0. rewrite !pair_vm. unfold pair1 at 2. cbn [Rsum]. rewrite !pair2_0 in E.
    apply (D_ext s0 _ _ _ _ (fun s => eq_sym (pair_mv _ _ _ _)) (eq_refl _)). apply (D_eq _ _ _ _ E). lra.
  - (* SoftmaxCE *)
    assert (E := C40_softmax rows n s0 _ _ t zeros dy (curve_mat _ _ _ _ _ Hx) (fun i Hi => proj1 (OK i Hi)) (fun i Hi => proj2 (OK i Hi))).
    cbn [b_din b_grad]. apply D_plus0. rewrite !pair_vm. unfold pair1 at 2. cbn [Rsum]. rewrite !pair2_0 in E.
    apply (D_eq _ _ _ _ E). lra.
  - (* SigmoidCE *)
    assert (E := C40_sigmoid rows cols s0 _ _ t zeros (mat_of cols dy) (curve_mat _ _ _ _ _ Hx) OK).
    cbn [b_din b_grad]. apply D_plus0. rewrite !pair_vm. unfold pair1 at 2. cbn [Rsum]. rewrite !pair2_0 in E.
    apply (D_ext s0 _ _ _ _ (fun s => eq_sym (pair_mv _ _ _ _)) (eq_refl _)). apply (D_eq _ _ _ _ E). lra.
  - (* BatchNorm *)
    destruct OK as [OK1 OK2].
    assert (E := C48_gradient rows cols decay epsilon s0 mu sigma sb _ _ _ _ _ _ zeros (mat_of cols dy) (fun _ => 0) (fun _ => 0) OK1 OK2 (curve_mat _ _ _ _ _ Hx) (curve_fst _ _ _ _ _ Hp) (curve_snd _ _ _ _ _ Hp)).
    cbv zeta in E. change (shift cols (fun _ => 0)) with (fun _ : nat => 0). destruct (bn_backward _ _ _ _ _ _ _ _) as [[dx dg] db]. cbn [b_din b_grad]. apply D_plus0. rewrite pair1_cat, !pair_vm. rewrite pair2_0, !pair1_0 in E.
    apply (D_ext s0 _ _ _ _ (fun s => eq_sym (pair_mv _ _ _ _)) (eq_refl _)). apply (D_eq _ _ _ _ E). lra.
  - (* Recurrent *)
    assert (Hp2 := curve_snd _ _ _ _ _ Hp).
    assert (E := C42_exact a nin n T B s0 (fun s => mat_of nin (p s)) (fun s => mat_of n (shift (n * nin) (p s))) (fun s => shift (n * n) (shift (n * nin) (p s))) (fun s => seq_of B nin (x s)) ctx
      (mat_of nin p') (mat_of n (shift (n * nin) p')) (shift (n * n) (shift (n * nin) p')) (seq_of B nin x') (seq_of B n dy) zeros (mat_of nin (fun _ => 0)) (mat_of n (fun _ => 0)) (fun _ => 0)
      (curve_mat _ _ _ _ _ (curve_fst _ _ _ _ _ Hp)) (curve_mat _ _ _ _ _ (curve_fst _ _ _ _ _ Hp2)) (curve_snd _ _ _ _ _ Hp2) (curve_seq _ _ _ _ _ _ Hx) OK). cbv zeta in E.
    change (shift (n * n) (shift (n * nin) (fun _ => 0))) with (fun _ : nat => 0). change (shift (n * nin) (fun _ => 0)) with (fun _ : nat => 0).
    set (y := rec_forward a nin n (S T) (mat_of nin (p s0)) (mat_of n (shift (n * nin) (p s0))) (shift (n * n) (shift (n * nin) (p s0))) (seq_of B nin (x s0)) ctx) in *.
    set (y2 := fun t => if (t <? S T)%nat then seq_of B n (cut (S T * B * n) (vec_of n (flat B y))) t else ctx).
    assert (Ey : forall t i j, (t <= S T)%nat -> (i < B)%nat -> (j < n)%nat -> y2 t i j = y t i j).
    { intros t i j Ht Hi Hj. unfold y2. apply outputs_cut; auto. intros i0 j0. unfold y, rec_forward. now rewrite Nat.ltb_irrefl. }
    assert (X := core_ext T B n nin (mat_of nin (p s0)) (seq_of B nin (x s0))
      (fun t => rec_dHa a n (mat_of n (shift (n * nin) (p s0))) y2 (seq_of B n dy) (S T - 1) (S T - 1 - t)) (fun t => rec_dHa a n (mat_of n (shift (n * nin) (p s0))) y (seq_of B n dy) (S T - 1) (S T - 1 - t))
      y2 y zeros (mat_of nin (fun _ => 0)) (mat_of n (fun _ => 0)) (fun _ => 0) (mat_of nin p') (mat_of n (shift (n * nin) p')) (shift (n * n) (shift (n * nin) p')) (mat_of nin x')
      ltac:(intros t i j Ht Hi Hj; apply (rec_dHa_ext a n _ _ _ _ _ B); try lia; intros; apply Ey; lia) Ey).
    change (core (S T) B n (mat_of nin (p s0)) (seq_of B nin (x s0)) (fun t => rec_dHa a n (mat_of n (shift (n * nin) (p s0))) y2 (seq_of B n dy) (S T - 1) (S T - 1 - t)) y2 zeros (mat_of nin (fun _ => 0)) (mat_of n (fun _ => 0)) (fun _ => 0))
      with (rec_backward a n (S T) B (mat_of nin (p s0)) (mat_of n (shift (n * nin) (p s0))) (seq_of B nin (x s0)) y2 (seq_of B n dy) zeros (mat_of nin (fun _ => 0)) (mat_of n (fun _ => 0)) (fun _ => 0)) in X.
    change (core (S T) B n (mat_of nin (p s0)) (seq_of B nin (x s0)) (fun t => rec_dHa a n (mat_of n (shift (n * nin) (p s0))) y (seq_of B n dy) (S T - 1) (S T - 1 - t)) y zeros (mat_of nin (fun _ => 0)) (mat_of n (fun _ => 0)) (fun _ => 0))
      with (rec_backward a n (S T) B (mat_of nin (p s0)) (mat_of n (shift (n * nin) (p s0))) (seq_of B nin (x s0)) y (seq_of B n dy) zeros (mat_of nin (fun _ => 0)) (mat_of n (fun _ => 0)) (fun _ => 0)) in X.
    destruct (rec_backward a n (S T) B _ _ _ y2 _ _ _ _ _) as [[[d1 w1] r1] b1]. destruct (rec_backward a n (S T) B _ _ _ y _ _ _ _ _) as [[[d2 w2] r2] b2].
    destruct X as (X1 & X2 & X3 & X4). cbn [b_din b_grad]. apply D_plus0. rewrite !pair1_cat, !pair_vm.
    rewrite X1, X2, X3, X4. rewrite pair2_0, !pair2_mat0, pair1_0 in E. rewrite (pair_seq_r (S T) B nin d2).
    apply (D_ext s0 _ _ _ _ (fun s => eq_sym (eq_trans (pair_mv (S T * B) n dy _) (pair_seq (S T) B n dy _))) (eq_refl _)). apply (D_eq _ _ _ _ E). lra.
  - (* Clockwork *)
    assert (Hp2 := curve_snd _ _ _ _ _ Hp).
    assert (E := C44_exact a nin n timing T B s0 (fun s => mat_of nin (p s)) (fun s => mat_of n (shift (n * nin) (p s))) (fun s => shift (n * n) (shift (n * nin) (p s))) (fun s => seq_of B nin (x s)) ctx
      (mat_of nin p') (mat_of n (shift (n * nin) p')) (shift (n * n) (shift (n * nin) p')) (seq_of B nin x') (seq_of B n dy) zeros (mat_of nin (fun _ => 0)) (mat_of n (fun _ => 0)) (fun _ => 0)
      (curve_mat _ _ _ _ _ (curve_fst _ _ _ _ _ Hp)) (curve_mat _ _ _ _ _ (curve_fst _ _ _ _ _ Hp2)) (curve_snd _ _ _ _ _ Hp2) (curve_seq _ _ _ _ _ _ Hx) OK). cbv zeta in E.
    change (shift (n * n) (shift (n * nin) (fun _ => 0))) with (fun _ : nat => 0). change (shift (n * nin) (fun _ => 0)) with (fun _ : nat => 0).
    set (y := cw_forward a nin n timing (S T) (mat_of nin (p s0)) (mat_of n (shift (n * nin) (p s0))) (shift (n * n) (shift (n * nin) (p s0))) (seq_of B nin (x s0)) ctx) in *.
    set (y2 := fun t => if (t <? S T)%nat then seq_of B n (cut (S T * B * n) (vec_of n (flat B y))) t else ctx).
    assert (Ey : forall t i j, (t <= S T)%nat -> (i < B)%nat -> (j < n)%nat -> y2 t i j = y t i j).
    { intros t i j Ht Hi Hj. unfold y2. apply outputs_cut; auto. intros i0 j0. unfold y, cw_forward. now rewrite Nat.ltb_irrefl. }
    assert (X := core_ext T B n nin (mat_of nin (p s0)) (seq_of B nin (x s0))
      (cw_dHa a n timing (mat_of n (shift (n * nin) (p s0))) y2 (seq_of B n dy) (S T - 1)) (cw_dHa a n timing (mat_of n (shift (n * nin) (p s0))) y (seq_of B n dy) (S T - 1))
      y2 y zeros (mat_of nin (fun _ => 0)) (mat_of n (fun _ => 0)) (fun _ => 0) (mat_of nin p') (mat_of n (shift (n * nin) p')) (shift (n * n) (shift (n * nin) p')) (mat_of nin x')
      ltac:(intros t i j Ht Hi Hj; unfold cw_dHa; assert (Q := cw_d_ext a n timing (mat_of n (shift (n * nin) (p s0))) y2 y (seq_of B n dy) (S T - 1) B ltac:(intros; apply Ey; lia) (S T - 1 - t) i j ltac:(lia) Hi Hj);
        destruct (0 <? t)%nat; [destruct (stays _ _); [reflexivity|] |]; apply Q) Ey).
    change (core (S T) B n (mat_of nin (p s0)) (seq_of B nin (x s0)) (cw_dHa a n timing (mat_of n (shift (n * nin) (p s0))) y2 (seq_of B n dy) (S T - 1)) y2 zeros (mat_of nin (fun _ => 0)) (mat_of n (fun _ => 0)) (fun _ => 0))
      with (cw_backward a n timing (S T) B (mat_of nin (p s0)) (mat_of n (shift (n * nin) (p s0))) (seq_of B nin (x s0)) y2 (seq_of B n dy) zeros (mat_of nin (fun _ => 0)) (mat_of n (fun _ => 0)) (fun _ => 0)) in X.
    change (core (S T) B n (mat_of nin (p s0)) (seq_of B nin (x s0)) (cw_dHa a n timing (mat_of n (shift (n * nin) (p s0))) y (seq_of B n dy) (S T - 1)) y zeros (mat_of nin (fun _ => 0)) (mat_of n (fun _ => 0)) (fun _ => 0))
      with (cw_backward a n timing (S T) B (mat_of nin (p s0)) (mat_of n (shift (n * nin) (p s0))) (seq_of B nin (x s0)) y (seq_of B n dy) zeros (mat_of nin (fun _ => 0)) (mat_of n (fun _ => 0)) (fun _ => 0)) in X.
    destruct (cw_backward a n timing (S T) B _ _ _ y2 _ _ _ _ _) as [[[d1 w1] r1] b1]. destruct (cw_backward a n timing (S T) B _ _ _ y _ _ _ _ _) as [[[d2 w2] r2] b2].
    destruct X as (X1 & X2 & X3 & X4). cbn [b_din b_grad]. apply D_plus0. rewrite !pair1_cat, !pair_vm.
    rewrite X1, X2, X3, X4. rewrite pair2_0, !pair2_mat0, pair1_0 in E. rewrite (pair_seq_r (S T) B nin d2).
    apply (D_ext s0 _ _ _ _ (fun s => eq_sym (eq_trans (pair_mv (S T * B) n dy _) (pair_seq (S T) B n dy _))) (eq_refl _)). apply (D_eq _ _ _ _ E). lra.
  - (* LSTM *)
    assert (E := C43_exact a nin n T B s0 (fun s => lstm_of nin n (p s)) (lstm_of nin n p') (fun s => seq_of B nin (x s)) (seq_of B nin x') zeros (seq_of B n dy) zeros (lstm_of nin n (fun _ => 0))
      (lstm_curve _ _ _ _ _ Hp) (curve_seq _ _ _ _ _ _ Hx) OK). cbv zeta in E. unfold lstm_grads in E.
    change (fun _ _ : nat => 0) with zeros in E. destruct (lstm_backward _ _ _ _ _ _ _ _ _ _ _ _ _) as [dx1 g1]. cbn [b_din b_grad]. apply D_plus0.
    rewrite lstm_pair, pair_vm. rewrite pair2_0, lstm_pair_sub in E. rewrite (pair_seq_r (S T) B nin dx1).
    apply (D_ext s0 _ _ _ _ (fun s => eq_sym (eq_trans (pair_mv (S T * B) n dy _) (pair_seq (S T) B n dy _))) (eq_refl _)). exact E.
  - (* Loss *)
    assert (E := C41_loss rows cols imp batch s0 _ _ zeros (curve_mat _ _ _ _ _ Hx)).
    cbn [b_din b_grad]. rewrite !pair_vm. unfold pair1. cbn [Rsum]. rewrite pair2_0 in E.
    apply (D_ext s0 (fun s => loss_forward rows cols imp batch (mat_of cols (x s))) _ _ _ (fun s => eq_sym (Rplus_0_l _)) (eq_refl _)). apply (D_eq _ _ _ _ E). lra.
  - (* ClockworkLstm *)
    destruct OK as [OK1 OK2].
    assert (E := C58_exact a nin n timing T B s0 (fun s => lstm_of nin n (p s)) (lstm_of nin n p') (fun s => seq_of B nin (x s)) (seq_of B nin x') zeros (seq_of B n dy) zeros (lstm_of nin n (fun _ => 0))
      OK1 (lstm_curve _ _ _ _ _ Hp) (curve_seq _ _ _ _ _ _ Hx) OK2). cbv zeta in E. unfold cl_grads in E.
    change (fun _ _ : nat => 0) with zeros in E. destruct (cl_backward _ _ _ _ _ _ _ _ _ _ _ _ _ _) as [dx1 g1]. cbn [b_din b_grad]. apply D_plus0.
    rewrite lstm_pair, pair_vm. rewrite pair2_0, lstm_pair_sub in E. rewrite (pair_seq_r (S T) B nin dx1).
    apply (D_ext s0 _ _ _ _ (fun s => eq_sym (eq_trans (pair_mv (S T * B) n dy _) (pair_seq (S T) B n dy _))) (eq_refl _)). exact E.
  - (* NoOp *)
    assert (E := C41_noop rows cols s0 _ _ zeros (mat_of cols dy) (curve_mat _ _ _ _ _ Hx)).
    cbn [b_din b_grad]. apply D_plus0. rewrite !pair_vm. unfold pair1 at 2. cbn [Rsum]. rewrite !pair2_0 in E.
    apply (D_ext s0 _ _ _ _ (fun s => eq_sym (pair_mv _ _ _ _)) (eq_refl _)). apply (D_eq _ _ _ _ E). lra.
  - (* Dropout *)
    assert (E := C47_scaled rows cols drop s0 _ _ mask zeros (mat_of cols dy) (curve_mat _ _ _ _ _ Hx)).
    cbn [b_din b_grad]. apply D_plus0. rewrite !pair_vm. unfold pair1 at 2. cbn [Rsum]. rewrite !pair2_0 in E.
    apply (D_ext s0 _ _ _ _ (fun s => eq_sym (pair_mv _ _ _ _)) (eq_refl _)). apply (D_eq _ _ _ _ E). rewrite OK. field.
  - (* L1Decay *)
    assert (E := C41_l1_decay rows cols s0 _ _ zeros dy (curve_mat _ _ _ _ _ Hx) OK).
    cbn [b_din b_grad]. apply D_plus0. rewrite !pair_vm. unfold pair1 at 2. cbn [Rsum]. rewrite !pair2_0 in E. apply (D_eq _ _ _ _ E). lra.
  - (* L2Decay *)
    assert (E := C41_l2_decay rows cols s0 _ _ zeros dy (curve_mat _ _ _ _ _ Hx)).
    cbn [b_din b_grad]. apply D_plus0. rewrite !pair_vm. unfold pair1 at 2. cbn [Rsum]. rewrite !pair2_0 in E. apply (D_eq _ _ _ _ E). lra.
  - (* BinomialCE *)
    assert (E := C40_binomial rows cols s0 _ _ t zeros dy (curve_mat _ _ _ _ _ Hx) OK).
    cbn [b_din b_grad]. apply D_plus0. rewrite !pair_vm. unfold pair1 at 2. cbn [Rsum]. rewrite !pair2_0 in E. apply (D_eq _ _ _ _ E). lra.
  - (* Convolution *)
    assert (E := C45_gradient (g_h g) (g_w g) (g_c g) (g_kh g) (g_kw g) (g_pad g) (g_sh g) (g_sw g) a images filters s0 (fun s => mat_of (g_cells g) (x s)) (fun s => mat_of (g_kernel g) (p s))
      (fun s => shift (filters * g_kernel g) (p s)) (mat_of (g_cells g) x') (mat_of (g_kernel g) p') (shift (filters * g_kernel g) p') (fun _ _ => 0) (seq_of (g_oh g * g_ow g) filters dy)
      (curve_mat _ _ _ _ _ Hx) (curve_mat _ _ _ _ _ (curve_fst _ _ _ _ _ Hp)) (curve_snd _ _ _ _ _ Hp) OK). cbv zeta beta in E.
    set (y := conv_of a g filters (p s0) (mat_of (g_cells g) (x s0))).
    change (fun i : nat => conv_forward (g_h g) (g_w g) (g_c g) (g_kh g) (g_kw g) (g_pad g) (g_sh g) (g_sw g) a (mat_of (g_kernel g) (p s0)) (shift (filters * g_kernel g) (p s0)) (mat_of (g_cells g) (x s0) i)) with y in E.
    assert (X := conv_ext g a images filters (mat_of (g_kernel g) (p s0)) (mat_of (g_cells g) (x s0))
      (seq_of (g_oh g * g_ow g) filters (cut (images * (g_oh g * g_ow g) * filters) (vec_of filters (flat (g_oh g * g_ow g) y)))) y (seq_of (g_oh g * g_ow g) filters dy)
      (mat_of (g_cells g) x') (mat_of (g_kernel g) p') (shift (filters * g_kernel g) p')).
    assert (Ey : forall i r f, (i < images)%nat -> (r < g_oh g * g_ow g)%nat -> (f < filters)%nat ->
      seq_of (g_oh g * g_ow g) filters (cut (images * (g_oh g * g_ow g) * filters) (vec_of filters (flat (g_oh g * g_ow g) y))) i r f = y i r f).
    { intros i r f Hi Hr Hf. unfold seq_of. rewrite (cut_mat (images * (g_oh g * g_ow g)) filters) by (auto; now apply idx_lt). rewrite mat_vec by assumption. unfold flat.
      rewrite divL, modL by assumption. reflexivity. }
    specialize (X Ey). cbv zeta beta in X.
    destruct (conv_backward _ _ _ _ _ _ _ _ _ _ _ _ _ (seq_of _ _ (cut _ _)) _ (fun _ _ => 0)) as [[d1 w1] b1]. destruct (conv_backward _ _ _ _ _ _ _ _ _ _ _ _ _ y _ (fun _ _ => 0)) as [[d2 w2] b2].
    destruct X as (X1 & X2 & X3). cbn [b_din b_grad]. apply D_plus0. rewrite !pair1_cat, !pair_vm, X1, X2, X3.
    apply (D_ext s0 _ _ _ _ (fun s => eq_sym (eq_trans (pair_mv (images * (g_oh g * g_ow g)) filters dy _) (pair_seq images (g_oh g * g_ow g) filters dy _))) (eq_refl _)).
    apply (D_eq _ _ _ _ E). rewrite Rplus_assoc. f_equal. apply pair2_ext. intros. lra.
  - (* MaxPool *)
    destruct OK as [OK1 [OK2 OK3]]. cbv zeta in OK3. cbn [b_din b_grad]. apply D_plus0. rewrite !pair_vm. unfold pair1. cbn [Rsum]. rewrite Rplus_0_r.
    apply (D_ext s0 _ _ _ _ (fun s => eq_sym (pair_mv images (g_oh g * g_ow g * g_c g) dy _)) (eq_refl _)). unfold pair2.
    apply (D_sum s0 images). intros i Hi.
    assert (E := C46_max_gradient (g_h g) (g_w g) (g_c g) (g_kh g) (g_kw g) (g_pad g) (g_sh g) (g_sw g) precision min_value s0 (fun s => img_of (g_w g) (g_c g) (mat_of (g_cells g) (x s) i))
      (img_of (g_w g) (g_c g) (mat_of (g_cells g) x' i)) (out_of g (mat_of (g_oh g * g_ow g * g_c g) dy i)) (fun _ _ _ => 0) OK1 OK2).
    cbv zeta in E. cbv beta in E.
    eapply D_ext; [| |apply E].
    + intros s. symmetry. apply pair_out.
    + symmetry. etransitivity; [apply pair_img|]. apply Rsum_ext; intros k Hk. apply Rsum_ext; intros yy Hy. apply Rsum_ext; intros xx Hxx. rewrite Rminus_0_r. reflexivity.
    + intros yy xx c Hy Hxx Hc. unfold img_of. rewrite !Nat2Z.id. apply (curve_mat _ images (g_cells g) _ _ Hx); [exact Hi|]. unfold g_cells. apply idx_lt; [now apply idx_lt|exact Hc].
    + intros y_out x_out c H1 H2 H3. exact (OK3 i Hi y_out x_out c H1 H2 H3).
  - (* AvgPool *)
    cbn [b_din b_grad]. apply D_plus0. rewrite !pair_vm. unfold pair1. cbn [Rsum]. rewrite Rplus_0_r.
    apply (D_ext s0 _ _ _ _ (fun s => eq_sym (pair_mv images (g_oh g * g_ow g * g_c g) dy _)) (eq_refl _)). unfold pair2.
    apply (D_sum s0 images). intros i Hi.
    assert (E := C46_avg_gradient (g_h g) (g_w g) (g_c g) (g_kh g) (g_kw g) (g_pad g) (g_sh g) (g_sw g) s0 (fun s => img_of (g_w g) (g_c g) (mat_of (g_cells g) (x s) i))
      (img_of (g_w g) (g_c g) (mat_of (g_cells g) x' i)) (out_of g (mat_of (g_oh g * g_ow g * g_c g) dy i)) (fun _ _ _ => 0)).
    cbv zeta in E. cbv beta in E.
    eapply D_ext; [| |apply E].
    + intros s. symmetry. apply pair_out.
    + symmetry. etransitivity; [apply pair_img|]. apply Rsum_ext; intros k Hk. apply Rsum_ext; intros yy Hy. apply Rsum_ext; intros xx Hxx. rewrite Rminus_0_r. reflexivity.
    + intros yy xx c Hy Hxx Hc. unfold img_of. rewrite !Nat2Z.id. apply (curve_mat _ images (g_cells g) _ _ Hx); [exact Hi|]. unfold g_cells. apply idx_lt; [now apply idx_lt|exact Hc].
Qed.
Print Assumptions C49_layers.

(** ** Networks of the modelled layers *)
Definition node : Type := kind * list nat * list nat.
Definition node_layer (d : node) : layer := let '(k, i, o) := d in layer_of k i o.
Definition node_sized (d : node) : Prop := let '(k, i, o) := d in length i = n_in k /\ length o = n_out k.
Fixpoint nodes_ok (i : nat) (ds : list node) (p : nat -> vec) (v : vec) : Prop :=
  match ds with [] => True | d :: r => let '(k, ins, _) := d in k_ok k (p i) (read ins v) /\ nodes_ok (S i) r p v end.
Lemma nodes_good ds : forall i p v, (forall d, In d ds -> node_sized d) -> nodes_ok i ds p v -> good_from i (map node_layer ds) p v.
Proof.
  induction ds as [|[[k ins] os] r IH]; intros i p v Hs Ho; cbn [map good_from node_layer]; [exact I|]. destruct Ho as [Ho1 Ho2]. split; [|apply IH; auto; intros d Hd; apply Hs; now right].
  destruct (Hs (k, ins, os) (or_introl eq_refl)) as [H1 H2]. now apply C49_layers.
Qed.
(** Along every curve of parameters and inputs *)
Theorem C49_network : forall ds N s0 (st : R -> state) p' v',
  let ls := map node_layer ds in
  wf_net ls -> (forall d, In d ds -> node_sized d) -> (forall l a, In l ls -> In a (l_in l) \/ In a (l_out l) -> (a < N)%nat) ->
  par_curves s0 (fun s => P (st s)) p' O ls -> curve1 s0 N (fun s => V (st s)) v' ->
  nodes_ok O ds (P (st s0)) (V (net_forward ls (st s0))) ->
  let s1 := net_backward ls (net_forward ls (st s0)) in
  D s0 (fun s => total_loss ls (net_forward ls (st s)))
       (Rsum N (fun a => if inb a (outs ls) then 0 else DV s1 a * v' a) + grads_from p' O ls (G s1)).
Proof. intros ds N s0 st p' v' ls WF Sz HN HC Hv Ho. apply C49_backprop; auto. now apply nodes_good. Qed.
Print Assumptions C49_network.

(** Every entry of the gradients is the partial derivative by that parameter, every delta of
    an external input the partial derivative by that input. *)
Definition set_param (i j : nat) (r : R) (c : state) : state := mkS (V c) (DV c) (In_ c) (DIn c) (upd i (upd j r (P c i)) (P c)) (G c).
Definition set_input (a : nat) (r : R) (c : state) : state := mkS (upd a r (V c)) (DV c) (In_ c) (DIn c) (P c) (G c).
Lemma upd_same {A} i (f : nat -> A) : upd i (f i) f = f.
Proof. apply functional_extensionality. intros k. unfold upd. destruct (Nat.eqb_spec k i); now subst. Qed.
Lemma set_param_same i j c : set_param i j (P c i j) c = c.
Proof. destruct c. unfold set_param. cbn. now rewrite upd_same, upd_same. Qed.
Lemma set_input_same a c : set_input a (V c a) c = c.
Proof. destruct c. unfold set_input. cbn. now rewrite upd_same. Qed.
Lemma grads_zero ls : forall i p' g, (forall k m, (i <= k)%nat -> p' k m = 0) -> grads_from p' i ls g = 0.
Proof.
  induction ls as [|l r IH]; intros i p' g H; cbn; [reflexivity|]. rewrite IH by (intros; apply H; lia). rewrite Rplus_0_r. apply Rsum_zero. intros k _. rewrite H by lia. lra.
Qed.
Lemma grads_single ls : forall i0 i j g l, nth_error ls i = Some l -> (j < l_np l)%nat ->
  grads_from (fun k m => if (k =? i0 + i)%nat then if (m =? j)%nat then 1 else 0 else 0) i0 ls g = g (i0 + i)%nat j.
Proof.
  induction ls as [|l0 r IH]; intros i0 i j g l E Hj; [now destruct i|]. cbn [grads_from]. destruct i as [|i]; cbn [nth_error] in E.
  - injection E as ->. rewrite (grads_zero r) by (intros k m Hk; destruct (Nat.eqb_spec k (i0 + 0)); [lia | reflexivity]). rewrite Rplus_0_r, Nat.add_0_r, Nat.eqb_refl. unfold pair1.
    rewrite (Rsum_single _ j); [rewrite Nat.eqb_refl; lra | assumption |]. intros m _ Ne. destruct (Nat.eqb_spec m j); [contradiction | lra].
  - replace (i0 + S i)%nat with (S i0 + i)%nat by lia. rewrite (IH (S i0) i j g l E Hj).
    replace (pair1 _ _ _) with 0; [lra|]. symmetry. apply Rsum_zero. intros m _. destruct (Nat.eqb_spec i0 (S i0 + i)); [lia | lra].
Qed.
Lemma par_curves_all s0 P0 P0' ls : (forall k m, D s0 (fun s => P0 s k m) (P0' k m)) -> forall i, par_curves s0 P0 P0' i ls.
Proof. intros H. induction ls as [|l r IH]; intros i; cbn; [exact I|]. split; [intros m _; apply H | apply IH]. Qed.
Theorem C49_gradient : forall ls N c i j l,
  wf_net ls -> (forall l a, In l ls -> In a (l_in l) \/ In a (l_out l) -> (a < N)%nat) ->
  good_from O ls (P c) (V (net_forward ls c)) -> nth_error ls i = Some l -> (j < l_np l)%nat ->
  D (P c i j) (fun r => total_loss ls (net_forward ls (set_param i j r c))) (G (net_backward ls (net_forward ls c)) i j).
Proof.
  intros ls N c i j l WF HN Good E Hj.
  assert (X := C49_backprop ls N (P c i j) (fun r => set_param i j r c) (fun k m => if (k =? 0 + i)%nat then if (m =? j)%nat then 1 else 0 else 0) (fun _ => 0) WF HN). cbv beta in X. rewrite set_param_same in X.
  apply (D_eq _ _ _ _ (X ltac:(apply par_curves_all; intros k m; cbn [set_param P Nat.add]; unfold upd; destruct (Nat.eqb_spec k i) as [->|]; [destruct (Nat.eqb_spec m j) as [->|]; [apply D_id | apply D_const] | apply D_const])
    ltac:(intros a _; cbn [set_param V]; apply D_const) Good)).
  rewrite (grads_single ls O i j _ l E Hj). rewrite Rsum_zero; [cbn; lra|]. intros a _. destruct (inb _ _); lra.
Qed.
Print Assumptions C49_gradient.
Theorem C49_input_delta : forall ls N c a,
  wf_net ls -> (forall l a, In l ls -> In a (l_in l) \/ In a (l_out l) -> (a < N)%nat) ->
  good_from O ls (P c) (V (net_forward ls c)) -> (a < N)%nat -> ~ In a (outs ls) ->
  D (V c a) (fun r => total_loss ls (net_forward ls (set_input a r c))) (DV (net_backward ls (net_forward ls c)) a).
Proof.
  intros ls N c a WF HN Good Ha Hn.
  assert (X := C49_backprop ls N (V c a) (fun r => set_input a r c) (fun k m => 0) (fun k => if (k =? a)%nat then 1 else 0) WF HN). cbv beta in X. rewrite set_input_same in X.
  apply (D_eq _ _ _ _ (X ltac:(apply par_curves_all; intros k m; cbn [set_input P]; apply D_const)
    ltac:(intros k _; cbn [set_input V]; unfold upd; destruct (Nat.eqb_spec k a); [apply D_id | apply D_const]) Good)).
  rewrite grads_zero by reflexivity. rewrite (Rsum_single _ a); [|assumption|].
  - apply inb_not in Hn. rewrite Hn, Nat.eqb_refl. lra.
  - intros k _ Ne. destruct (inb _ _); [reflexivity|]. destruct (Nat.eqb_spec k a); [contradiction | lra].
Qed.
Print Assumptions C49_input_delta.

(** A network in which the outputs of the first layer (cells 2, 3) feed two layers:
    input [0;1] -> tanh FC -> [2;3] -> sigmoid -> [4;5]; squared difference of [2;3] and
    [4;5] -> [6;7] -> Loss *)
Definition diamond : list node :=
  [ (KFullyConnected Tanh 1 2 2, [0; 1], [2; 3]); (KElementwise Sigmoid 1 2, [2; 3], [4; 5]);
    (KSquaredDifference 1 2, [2; 3; 4; 5], [6; 7]); (KLoss 1 2 1 1, [6; 7], []) ]%nat.
Lemma diamond_wf : wf_net (map node_layer diamond).
Proof.
  cbn. repeat split; try (repeat constructor; cbn; intuition congruence); try (intros; intuition (subst; cbn in *; intuition congruence)).
Qed.
Lemma diamond_cells : forall l a, In l (map node_layer diamond) -> In a (l_in l) \/ In a (l_out l) -> (a < 8)%nat.
Proof. cbn. intros l a H Ha. intuition (subst; cbn in *; intuition lia). Qed.
Lemma diamond_good c : good_from O (map node_layer diamond) (P c) (V (net_forward (map node_layer diamond) c)).
Proof.
  apply nodes_good; [cbn; intros d H; intuition (subst; cbn; auto) |]. cbn [diamond nodes_ok k_ok]. repeat split; discriminate.
Qed.
Example C49_case : forall c j, (j < 6)%nat ->
  let ls := map node_layer diamond in
  D (P c 0%nat j) (fun r => total_loss ls (net_forward ls (set_param 0 j r c))) (G (net_backward ls (net_forward ls c)) 0%nat j).
Proof. intros c j Hj ls. apply (C49_gradient ls 8 c 0 j (layer_of (KFullyConnected Tanh 1 2 2) [0; 1]%nat [2; 3]%nat)); [apply diamond_wf | apply diamond_cells | apply diamond_good | reflexivity | exact Hj]. Qed.

(** Two filters of size 1 on an image of 2 x 2 pixels, average pooling, decay, Loss *)
Definition image_net : list node :=
  [ (KConvolution Tanh (mkGeo 2 2 1 1 1 0 1 1) 1 2, [0; 1; 2; 3], [4; 5; 6; 7; 8; 9; 10; 11]);
    (KAvgPool (mkGeo 2 2 2 2 2 0 1 1) 1, [4; 5; 6; 7; 8; 9; 10; 11], [12; 13]);
    (KL2Decay 1 2, [12; 13], [14]); (KLoss 1 1 1 1, [14], []) ]%nat.
Lemma image_net_wf : wf_net (map node_layer image_net).
Proof.
  cbn. repeat split; try (repeat constructor; cbn; intuition congruence); try (intros; intuition (subst; cbn in *; intuition congruence)).
Qed.
Example C49_image_case : forall c j, (j < 4)%nat ->
  let ls := map node_layer image_net in
  D (P c 0%nat j) (fun r => total_loss ls (net_forward ls (set_param 0 j r c))) (G (net_backward ls (net_forward ls c)) 0%nat j).
Proof.
  intros c j Hj ls. apply (C49_gradient ls 15 c 0 j (layer_of (KConvolution Tanh (mkGeo 2 2 1 1 1 0 1 1) 1 2) [0; 1; 2; 3]%nat [4; 5; 6; 7; 8; 9; 10; 11]%nat)).
  - apply image_net_wf.
  - cbn. intros l a H Ha. intuition (subst; cbn in *; intuition lia).
  - apply nodes_good; [cbn [image_net In]; intros d H; intuition (subst; cbn; auto) |]. cbn [image_net nodes_ok k_ok]. repeat split; discriminate.
  - reflexivity.
  - exact Hj.
Qed.

(** ** C50 for networks of the modelled layers *)
Theorem C50_layers : forall k ins outs, stable (layer_of k ins outs).
Proof. intros k ins os p x y int dout dint g. unfold layer_of. cbn [l_bwd]. destruct (k_bwd k p x y dout g). reflexivity. Qed.
Print Assumptions C50_layers.
Theorem C50_network : forall ds s, let ls := map node_layer ds in
  let s1 := net_backward ls s in DV (net_backward ls s1) = DV s1 /\ G (net_backward ls s1) = G s1.
Proof.
  intros ds s ls s1. apply C50_repeat. intros l Hl. apply in_map_iff in Hl as ([[k i] o] & <- & _). apply C50_layers.
Qed.
Print Assumptions C50_network.
(** Two networks with equal parameters and inputs but different old contents of all
    other buffers compute the same gradients; so does a second backward pass. *)
Example C50_case : forall v dv int dint p g,
  let ls := map node_layer diamond in
  let s := mkS v dv int dint p g in
  let s' := mkS (fun a => if ((2 <=? a) && (a <=? 7))%nat%bool then 7 else v a) (fun _ => 5) (fun _ _ => 6) (fun _ _ => 4) p (fun _ _ => 3) in
  forall k, (k < 4)%nat -> G (net_backward ls (net_forward ls s)) k = G (net_backward ls (net_forward ls s')) k /\
                           G (net_backward ls (net_backward ls (net_forward ls s))) k = G (net_backward ls (net_forward ls s')) k.
Proof.
  intros v dv int dint p g ls s s' k Hk.
  assert (E : G (net_backward ls (net_forward ls s)) k = G (net_backward ls (net_forward ls s')) k).
  { apply C50_fresh; [apply diamond_wf | reflexivity | | exact Hk]. intros a Ha. cbn [V s s'].
    destruct (Nat.leb_spec 2 a); [|reflexivity]. destruct (Nat.leb_spec a 7); [|reflexivity]. exfalso. apply Ha. cbn. lia. }
  split; [exact E|]. rewrite <- E. assert (Q := C50_network diamond (net_forward ls s)). cbv zeta in Q. fold ls in Q. destruct Q as [_ Q]. exact (f_equal (fun g => g k) Q).
Qed.
