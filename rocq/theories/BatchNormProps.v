(** Batch normalisation: C48. *)
From Coq Require Import Reals Lra Lia Arith List.
From Verif Require Import NumBase NumpyModel NumpyProps LayersModel LayersProps.
Import ListNotations.
Open Scope R_scope.

(** Mean and variance of the [m] values of a feature *)
Definition mean (m : nat) (x : vec) : R := Rsum m x / INR m.
Definition variance (m : nat) (x : vec) : R := mean m (fun i => (x i - mean m x) * (x i - mean m x)).

Lemma INR_pos m : (1 <= m)%nat -> 0 < INR m.
Proof. intros H. apply lt_0_INR. lia. Qed.
Lemma variance_nonneg m x : (1 <= m)%nat -> 0 <= variance m x.
Proof.
  intros H. unfold variance, mean at 1. apply Rmult_le_pos; [apply Rsum_nonneg; intros i Hi; apply (Rle_0_sqr (x i - mean m x)) | left; apply Rinv_0_lt_compat; now apply INR_pos].
Qed.
Lemma mean_ext m f g : (forall i, (i < m)%nat -> f i = g i) -> mean m f = mean m g.
Proof. intros H. unfold mean. f_equal. now apply Rsum_ext. Qed.
Lemma mean_minus m f g : mean m (fun i => f i - g i) = mean m f - mean m g.
Proof. unfold mean. rewrite Rsum_minus. unfold Rdiv. lra. Qed.
Lemma mean_scal m c f : mean m (fun i => c * f i) = c * mean m f.
Proof. unfold mean. rewrite Rsum_scal. unfold Rdiv. lra. Qed.
Lemma centered_sum m x : (1 <= m)%nat -> Rsum m (fun i => x i - mean m x) = 0.
Proof. intros H. rewrite Rsum_minus, Rsum_const. unfold mean. assert (P := INR_pos m H). field. lra. Qed.
Lemma mean_centered m x : (1 <= m)%nat -> mean m (fun i => x i - mean m x) = 0.
Proof. intros H. unfold mean at 1. rewrite centered_sum by assumption. unfold Rdiv. lra. Qed.

Section Training.
Variables (m : nat) (decay epsilon : R) (gamma beta mu sigma sb : vec).
Hypothesis Hm : (1 <= m)%nat.
Hypothesis Heps : 0 < epsilon.
Notation fwd x := (bn_forward true m decay epsilon gamma beta mu sigma sb x).
Notation col x j := (fun i => x i j).
Definition sd (m : nat) (epsilon : R) (x : vec) : R := sqrt (variance m x + epsilon).

Lemma sd_pos x : 0 < sd m epsilon x.
Proof. apply sqrt_lt_R0. assert (H := variance_nonneg m x Hm). lra. Qed.
Lemma bn_centered_eq x i j : bn_centered (fwd x) i j = x i j - mean m (col x j).
Proof. cbn. unfold mean, sum0. unfold Rdiv. lra. Qed.
Lemma bn_sigma_eq x j : bn_sigma_b (fwd x) j = sd m epsilon (col x j).
Proof.
  cbn. unfold sd, variance. f_equal. f_equal. unfold mean at 1, sum0. unfold Rdiv at 1. rewrite Rmult_1_l, Rmult_comm. unfold Rdiv. f_equal.
  apply Rsum_ext. intros i Hi. assert (E := bn_centered_eq x i j). cbn in E. unfold sum0 in E. now rewrite <- E.
Qed.
Lemma bn_x_hat_eq x i j : bn_x_hat (fwd x) i j = (x i j - mean m (col x j)) / sd m epsilon (col x j).
Proof. rewrite <- bn_centered_eq, <- bn_sigma_eq. reflexivity. Qed.
Lemma bn_out_eq x i j : bn_out (fwd x) i j = bn_x_hat (fwd x) i j * gamma j + beta j.
Proof. reflexivity. Qed.
Lemma x_hat_sum x j : Rsum m (fun i => bn_x_hat (fwd x) i j) = 0.
Proof.
  rewrite (Rsum_ext m _ (fun i => (x i j - mean m (col x j)) * / sd m epsilon (col x j))) by (intros; apply bn_x_hat_eq).
  rewrite Rsum_scal_r. rewrite (centered_sum m (col x j) Hm). lra.
Qed.

Lemma D_mean s (x : R -> vec) x' : curve1 s m x x' -> D s (fun s => mean m (x s)) (mean m x').
Proof. intros H. unfold mean. apply (D_scal_r s (/ INR m) (fun s => Rsum m (x s))). apply (D_sum s m (fun i s => x s i)). exact H. Qed.
Lemma D_variance s (x : R -> vec) x' : curve1 s m x x' ->
  D s (fun s => variance m (x s)) (2 * mean m (fun i => (x s i - mean m (x s)) * x' i)).
Proof.
  intros H. unfold variance.
  assert (C : curve1 s m (fun s i => x s i - mean m (x s)) (fun i => x' i - mean m x')).
  { intros i Hi. apply (D_minus s (fun s => x s i) (fun s => mean m (x s))); [now apply H | now apply D_mean]. }
  apply (D_eq _ _ (mean m (fun i => (x' i - mean m x') * (x s i - mean m (x s)) + (x s i - mean m (x s)) * (x' i - mean m x')))).
  - apply (D_mean s (fun s i => (x s i - mean m (x s)) * (x s i - mean m (x s)))). intros i Hi. apply (D_mult s (fun s => x s i - mean m (x s)) (fun s => x s i - mean m (x s))); now apply C.
  - rewrite (mean_ext m _ (fun i => 2 * ((x s i - mean m (x s)) * x' i) - 2 * mean m x' * (x s i - mean m (x s)))) by (intros; lra).
    rewrite mean_minus, !mean_scal. rewrite (mean_centered m (x s)) by assumption. lra.
Qed.
Lemma D_sd s (x : R -> vec) x' : curve1 s m x x' ->
  D s (fun s => sd m epsilon (x s)) (mean m (fun i => (x s i - mean m (x s)) / sd m epsilon (x s) * x' i)).
Proof.
  intros H. assert (P := sd_pos (x s)). assert (V := variance_nonneg m (x s) Hm).
  apply (D_eq _ _ (/ (2 * sqrt (variance m (x s) + epsilon)) * (2 * mean m (fun i => (x s i - mean m (x s)) * x' i) + 0))).
  - apply (D_comp s (fun s => variance m (x s) + epsilon) sqrt (2 * mean m (fun i => (x s i - mean m (x s)) * x' i) + 0)).
    + apply (D_plus s (fun s => variance m (x s)) (fun _ => epsilon)); [now apply D_variance | apply D_const].
    + apply derivable_pt_lim_sqrt. lra.
  - fold (sd m epsilon (x s)). rewrite (mean_ext m (fun i => (x s i - mean m (x s)) / sd m epsilon (x s) * x' i) (fun i => / sd m epsilon (x s) * ((x s i - mean m (x s)) * x' i))) by (intros; unfold Rdiv; lra).
    rewrite mean_scal. field. lra.
Qed.
End Training.

(** In training every feature of x_hat has mean 0 and variance v/(v+epsilon). *)
Theorem C48_normalised : forall m decay epsilon gamma beta mu sigma sb x j, (1 <= m)%nat -> 0 < epsilon ->
  let st := bn_forward true m decay epsilon gamma beta mu sigma sb x in
  let v := variance m (fun i => x i j) in
  mean m (fun i => bn_x_hat st i j) = 0 /\
  variance m (fun i => bn_x_hat st i j) = v / (v + epsilon) /\
  (forall i, bn_x_hat st i j = (x i j - mean m (fun i => x i j)) / sqrt (v + epsilon)) /\
  (forall i, bn_out st i j = bn_x_hat st i j * gamma j + beta j).
Proof.
  intros m decay epsilon gamma beta mu sigma sb x j Hm He st v.
  assert (M : mean m (fun i => bn_x_hat st i j) = 0) by (unfold mean, st; rewrite x_hat_sum by assumption; unfold Rdiv; lra).
  split; [exact M|]. split; [|split; [intros i; unfold st; now apply bn_x_hat_eq | reflexivity]].
  unfold variance. rewrite M. assert (P := sd_pos m epsilon Hm He (fun i => x i j)). assert (V := variance_nonneg m (fun i => x i j) Hm). fold v in V.
  assert (E : sd m epsilon (fun i => x i j) * sd m epsilon (fun i => x i j) = v + epsilon) by (unfold sd; apply sqrt_sqrt; fold v; lra).
  rewrite <- E.
  rewrite (mean_ext m _ (fun i => / (sd m epsilon (fun i => x i j) * sd m epsilon (fun i => x i j)) * ((x i j - mean m (fun i => x i j)) * (x i j - mean m (fun i => x i j))))).
  - rewrite mean_scal. unfold v, variance. unfold Rdiv. lra.
  - intros i Hi. unfold st. rewrite (bn_x_hat_eq m decay epsilon gamma beta mu sigma sb x i j). field. lra.
Qed.
Print Assumptions C48_normalised.

(** Running statistics: after any sequence of training batches (of any sizes), the
    exponential moving averages of the negative means and of the deviations. *)
Fixpoint bn_train (decay epsilon : R) (gamma beta : vec) (mu sigma sb : vec) (batches : list (nat * mat)) : vec * vec :=
  match batches with
  | [] => (mu, sigma)
  | (m, x) :: rest => let st := bn_forward true m decay epsilon gamma beta mu sigma sb x in bn_train decay epsilon gamma beta (bn_mu st) (bn_sigma st) (bn_sigma_b st) rest
  end.
Fixpoint ema (decay a0 : R) (l : list R) : R := match l with [] => a0 | a :: r => ema decay (decay * a0 + (1 - decay) * a) r end.
Theorem C48_running : forall batches decay epsilon gamma beta mu sigma sb j, (forall m x, In (m, x) batches -> (1 <= m)%nat) ->
  fst (bn_train decay epsilon gamma beta mu sigma sb batches) j = ema decay (mu j) (map (fun b => - mean (fst b) (fun i => snd b i j)) batches) /\
  snd (bn_train decay epsilon gamma beta mu sigma sb batches) j = ema decay (sigma j) (map (fun b => sqrt (variance (fst b) (fun i => snd b i j) + epsilon)) batches).
Proof.
  induction batches as [|[m x] r IH]; intros decay epsilon gamma beta mu sigma sb j H; [split; reflexivity|]. cbn [bn_train map ema].
  assert (Hm : (1 <= m)%nat) by (apply (H m x); now left).
  destruct (IH decay epsilon gamma beta (bn_mu (bn_forward true m decay epsilon gamma beta mu sigma sb x)) (bn_sigma (bn_forward true m decay epsilon gamma beta mu sigma sb x)) (bn_sigma_b (bn_forward true m decay epsilon gamma beta mu sigma sb x)) j) as [A B].
  { intros m' x' Hin. apply (H m' x'). now right. }
  rewrite A, B. cbn [fst snd]. split.
  - f_equal. cbn. unfold mean, sum0, Rdiv. lra.
  - f_equal. change (bn_sigma (bn_forward true m decay epsilon gamma beta mu sigma sb x) j) with (decay * sigma j + (1 - decay) * bn_sigma_b (bn_forward true m decay epsilon gamma beta mu sigma sb x) j).
    now rewrite (bn_sigma_eq m decay epsilon gamma beta mu sigma sb x j).
Qed.
Print Assumptions C48_running.
(** The moving average is a weighted mean with geometrically decaying weights. *)
Theorem C48_ema : forall decay l a0 lo hi, 0 <= decay <= 1 -> lo <= a0 <= hi -> (forall a, In a l -> lo <= a <= hi) -> lo <= ema decay a0 l <= hi.
Proof.
  intros decay l. induction l as [|a r IH]; intros a0 lo hi Hd H0 H; [exact H0|]. cbn. apply IH; [assumption | | intros; apply H; now right].
  assert (A := H a (or_introl eq_refl)). nra.
Qed.
Print Assumptions C48_ema.
(** Outside training they are used and left as they are. *)
Theorem C48_evaluation : forall m decay epsilon gamma beta mu sigma sb x i j,
  let st := bn_forward false m decay epsilon gamma beta mu sigma sb x in
  bn_out st i j = (x i j - (- mu j)) / sigma j * gamma j + beta j /\ bn_mu st = mu /\ bn_sigma st = sigma.
Proof. intros. cbn. split; [|split; reflexivity]. replace (x i j - - mu j) with (x i j + mu j) by lra. reflexivity. Qed.
Print Assumptions C48_evaluation.

(** The backward pass adds the exact derivatives with respect to inputs, gamma and beta. *)
Theorem C48_gradient : forall m cols decay epsilon s0 mu sigma sb (x : R -> mat) (gamma beta : R -> vec) x' gamma' beta' din dout dgamma dbeta,
  (1 <= m)%nat -> 0 < epsilon -> curve2 s0 m cols x x' -> curve1 s0 cols gamma gamma' -> curve1 s0 cols beta beta' ->
  let fwd := fun s => bn_forward true m decay epsilon (gamma s) (beta s) mu sigma sb (x s) in
  let '(din1, dgamma1, dbeta1) := bn_backward m (gamma s0) (bn_sigma_b (fwd s0)) (bn_x_hat (fwd s0)) dout din dgamma dbeta in
  D s0 (fun s => pair2 m cols dout (bn_out (fwd s)))
       (pair2 m cols (msub din1 din) x' + pair1 cols (fun j => dgamma1 j - dgamma j) gamma' + pair1 cols (fun j => dbeta1 j - dbeta j) beta').
Proof.
  intros m cols decay epsilon s0 mu sigma sb x gamma beta x' gamma' beta' din dout dgamma dbeta Hm He Hx Hg Hb fwd. unfold bn_backward.
  assert (Q := INR_pos m Hm).
  set (xh := bn_x_hat (fwd s0)). set (sg := bn_sigma_b (fwd s0)).
  assert (Esg : forall j, sg j = sd m epsilon (fun i => x s0 i j)) by (intros j; apply bn_sigma_eq).
  assert (Psg : forall j, 0 < sg j) by (intros j; rewrite Esg; now apply sd_pos).
  assert (Exh : forall i j, xh i j = (x s0 i j - mean m (fun i => x s0 i j)) / sg j) by (intros i j; rewrite Esg; apply bn_x_hat_eq).
  set (xh' := fun i j : nat => (x' i j - mean m (fun i => x' i j) - xh i j * mean m (fun i => xh i j * x' i j)) / sg j).
  assert (Hxh : forall i j, (i < m)%nat -> (j < cols)%nat -> D s0 (fun s => bn_x_hat (fwd s) i j) (xh' i j)).
  { intros i j Hi Hj. assert (C : curve1 s0 m (fun s i => x s i j) (fun i => x' i j)) by (intros k Hk; now apply Hx).
    apply (D_ext s0 (fun s => (x s i j - mean m (fun i => x s i j)) / sd m epsilon (fun i => x s i j)) _
      (((x' i j - mean m (fun i => x' i j)) * sg j - (x s0 i j - mean m (fun i => x s0 i j)) * mean m (fun i => xh i j * x' i j)) / Rsqr (sg j))).
    - intros s. symmetry. apply bn_x_hat_eq.
    - unfold xh'. rewrite (Exh i j). specialize (Psg j). unfold Rsqr. field. lra.
    - rewrite !Esg. apply (D_div s0 (fun s => x s i j - mean m (fun i => x s i j)) (fun s => sd m epsilon (fun i => x s i j))).
      + apply (D_minus s0 (fun s => x s i j) (fun s => mean m (fun i => x s i j))); [now apply Hx | now apply (D_mean m s0 (fun s i => x s i j))].
      + apply (D_eq _ _ _ _ (D_sd m epsilon Hm He s0 (fun s i => x s i j) (fun i => x' i j) C)). apply mean_ext. intros k Hk. now rewrite Exh, Esg.
      + rewrite <- Esg. specialize (Psg j). lra. }
  apply (D_pair2 s0 m cols dout (fun s => bn_out (fwd s)) (fun i j => (xh' i j * gamma s0 j + xh i j * gamma' j) + beta' j)).
  - intros i j Hi Hj. change (D s0 (fun s => bn_x_hat (fwd s) i j * gamma s j + beta s j) (xh' i j * gamma s0 j + xh i j * gamma' j + beta' j)).
    apply (D_plus s0 (fun s => bn_x_hat (fwd s) i j * gamma s j) (fun s => beta s j)); [|now apply Hb].
    apply (D_mult s0 (fun s => bn_x_hat (fwd s) i j) (fun s => gamma s j)); [now apply Hxh | now apply Hg].
  - unfold pair2. rewrite (Rsum_swap m cols (fun i j => dout i j * _)). rewrite (Rsum_swap m cols (fun i j => msub _ _ i j * _)). unfold pair1. rewrite <- !Rsum_plus. apply Rsum_ext. intros j Hj.
    set (g := gamma s0 j). set (k := sg j). assert (Pk : 0 < k) by apply Psg.
    set (A := Rsum m (fun i => dout i j)). set (B := Rsum m (fun i => dout i j * xh i j)).
    set (X := Rsum m (fun i => x' i j)). set (Y := Rsum m (fun i => xh i j * x' i j)). set (Z := Rsum m (fun i => dout i j * x' i j)).
    transitivity (g / k * Z - g / k * (X / INR m) * A - g / k * (Y / INR m) * B + gamma' j * B + beta' j * A).
    + unfold A, B, Z. rewrite <- !Rsum_scal, <- !Rsum_minus, <- !Rsum_plus. apply Rsum_ext. intros i Hi. unfold xh', mean. fold X Y k. fold g. field. lra.
    + replace (Rsum m _) with (g / k * Z - g / k * (1 / INR m * B) * Y - g / k * (1 / INR m * A) * X).
      * unfold sum0. fold A. change (Rsum m (fun i => dout i j * xh i j)) with B. field. lra.
      * unfold Z, X, Y. rewrite <- !Rsum_scal, <- !Rsum_minus. apply Rsum_ext. intros i Hi. unfold msub, sum0. fold A g k. change (Rsum m (fun i => dout i j * xh i j)) with B. unfold Rdiv. lra.
Qed.
Print Assumptions C48_gradient.
(** Two samples -1 and 1 with epsilon = 3: deviation 2. *)
Example C48_case : let st := bn_forward true 2 (9 / 10) 3 (fun _ => 4) (fun _ => 1) (fun _ => 0) (fun _ => 1) (fun _ => 0) (fun i _ => match i with O => -1 | _ => 1 end) in
  bn_out st O O = -1 /\ bn_out st 1%nat O = 3 /\ bn_sigma st O = 11 / 10.
Proof.
  assert (E : sqrt (1 / (1 + 1) * (0 + (-1 + -1 / (1 + 1) * (0 + -1 + 1)) * (-1 + -1 / (1 + 1) * (0 + -1 + 1)) + (1 + -1 / (1 + 1) * (0 + -1 + 1)) * (1 + -1 / (1 + 1) * (0 + -1 + 1))) + 3) = 2).
  { replace (1 / (1 + 1) * _ + 3) with (2 * 2) by field. rewrite sqrt_square; lra. }
  cbn. unfold sum0. cbn [Rsum]. rewrite E. repeat split; lra.
Qed.
