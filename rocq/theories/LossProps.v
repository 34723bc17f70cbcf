(** Cross-entropy layers and batch normalisation: C40, C48. *)
From Coq Require Import Reals Lra Lia Arith List.
From Verif Require Import NumBase NumpyModel NumpyProps LayersModel LayersProps.
Import ListNotations.
Open Scope R_scope.

(** ** C40 *)
Lemma eps6_pos : 0 < eps6 < 1.
Proof. unfold eps6. lra. Qed.
Lemma clip_id y : eps6 <= y <= 1 -> clip eps6 1 y = y.
Proof. intros [H1 H2]. unfold clip. rewrite Rmax_left by assumption. now rewrite Rmin_left. Qed.
Lemma clip_low y : y <= eps6 -> clip eps6 1 y = eps6.
Proof. intros H. assert (E := eps6_pos). unfold clip. rewrite Rmax_right by assumption. now rewrite Rmin_left by lra. Qed.

Definition lse (n : nat) (x : vec) : R := ln (Rsum (S n) (fun k => exp (x k))).
Lemma sumexp_pos n x : 0 < Rsum (S n) (fun k => exp (x k)).
Proof. apply Rsum_pos; [lia | intros; apply exp_pos]. Qed.
Lemma softmax_lse n x j : softmax n x j = exp (x j - lse n x).
Proof. rewrite softmax_plain. unfold Rminus. rewrite exp_plus, exp_Ropp. unfold lse. rewrite exp_ln by apply sumexp_pos. reflexivity. Qed.
Lemma D_lse s n (x : R -> vec) x' : curve1 s (S n) x x' -> D s (fun s => lse n (x s)) (Rsum (S n) (fun k => softmax n (x s) k * x' k)).
Proof.
  intros H. assert (P := sumexp_pos n (x s)).
  apply (D_eq _ _ (/ Rsum (S n) (fun k => exp (x s k)) * Rsum (S n) (fun k => exp (x s k) * x' k))).
  - apply (D_ln s (fun s => Rsum (S n) (fun k => exp (x s k)))); [|assumption]. apply (D_sum s (S n) (fun k s => exp (x s k))). intros k Hk. apply (D_exp s (fun s => x s k)). now apply H.
  - rewrite <- Rsum_scal. apply Rsum_ext; intros k Hk. rewrite softmax_plain. unfold Rdiv. lra.
Qed.
Lemma ce_row n s (x : R -> vec) x' t : curve1 s (S n) x x' -> (t <= n)%nat -> eps6 < softmax n (x s) t ->
  D s (fun s => -1 * ln (clip eps6 1 (softmax n (x s) t))) (Rsum (S n) (fun k => softmax n (x s) k * x' k) - x' t).
Proof.
  intros H Ht Hp. assert (HD : D s (fun s => lse n (x s) - x s t) (Rsum (S n) (fun k => softmax n (x s) k * x' k) - x' t)).
  { apply (D_minus s (fun s => lse n (x s)) (fun s => x s t)); [now apply D_lse | apply H; lia]. }
  assert (HE : D s (fun s => softmax n (x s) t) (exp (- (lse n (x s) - x s t)) * - (Rsum (S n) (fun k => softmax n (x s) k * x' k) - x' t))).
  { apply (D_ext s (fun s => exp (- (lse n (x s) - x s t))) _ (exp (- (lse n (x s) - x s t)) * - (Rsum (S n) (fun k => softmax n (x s) k * x' k) - x' t))).
    - intros r. rewrite softmax_lse. f_equal. lra.
    - reflexivity.
    - apply (D_exp s (fun s => - (lse n (x s) - x s t))). now apply (D_opp s (fun s => lse n (x s) - x s t)). }
  destruct (D_near _ _ _ (softmax n (x s) t - eps6) HE ltac:(lra)) as [d [Hd Near]].
  apply (D_local s (fun s => lse n (x s) - x s t)); [|exact HD]. exists d. split; [assumption|]. intros r Hr. specialize (Near r Hr). apply Rabs_def2 in Near.
  destruct (C39_softmax n (x r)) as [B _]. specialize (B t Ht). rewrite clip_id by lra. rewrite softmax_lse, ln_exp. lra.
Qed.

(** SoftmaxCE: exact as long as no target probability falls below the clipping bound. *)
Theorem C40_softmax : forall rows n s0 (x : R -> mat) x' t dx dloss, curve2 s0 rows (S n) x x' ->
  (forall i, (i < rows)%nat -> (t i <= n)%nat) ->
  (forall i, (i < rows)%nat -> 1 / 1000000 < fst (softmax_ce_forward n (x s0) t) i (t i)) ->
  D s0 (fun s => pair1 rows dloss (snd (softmax_ce_forward n (x s) t)))
       (pair2 rows (S n) (msub (softmax_ce_backward (fst (softmax_ce_forward n (x s0) t)) t dx dloss) dx) x').
Proof.
  intros rows n s0 x x' t dx dloss Hx Ht Hp. cbn [softmax_ce_forward fst snd] in *.
  apply (D_eq _ _ (Rsum rows (fun i => dloss i * (Rsum (S n) (fun k => softmax n (x s0 i) k * x' i k) - x' i (t i))))).
  - apply (D_sum s0 rows (fun i s => dloss i * (-1 * ln (clip eps6 1 (softmax n (x s i) (t i)))))). intros i Hi.
    apply (D_scal s0 (dloss i) (fun s => -1 * ln (clip eps6 1 (softmax n (x s i) (t i))))). apply (ce_row n s0 (fun s => x s i) (x' i) (t i)); [|now apply Ht | now apply Hp].
    intros k Hk. now apply Hx.
  - apply Rsum_ext; intros i Hi. transitivity (Rsum (S n) (fun j => dloss i * (softmax n (x s0 i) j * x' i j) - dloss i * ((if (j =? t i)%nat then 1 else 0) * x' i j))).
    + rewrite Rsum_minus, !Rsum_scal. rewrite (Rsum_single (S n) (t i) (fun j => (if (j =? t i)%nat then 1 else 0) * x' i j)).
      * rewrite Nat.eqb_refl. lra.
      * specialize (Ht i Hi). lia.
      * intros j _ N. apply Nat.eqb_neq in N. rewrite N. lra.
    + apply Rsum_ext; intros j Hj. unfold msub, softmax_ce_backward. lra.
Qed.
Print Assumptions C40_softmax.

(** SigmoidCE: exact as long as the clipping does not act on a term of non-zero weight. *)
Lemma ce_loss_D s f l t : D s f l -> (t = 0 \/ eps6 < f s) -> (t = 1 \/ eps6 < 1 - f s) -> (forall r, 0 < f r < 1) ->
  D s (fun s => ce_loss (f s) t) (((1 - t) * - / (1 - f s) + t * / f s) * l).
Proof.
  intros H H0 H1 B. unfold ce_loss. assert (B0 := B s).
  assert (Hm : D s (fun s => 1 - f s) (0 - l)) by (apply (D_minus s (fun _ => 1) f); [apply D_const | assumption]).
  assert (L : forall g l', D s g l' -> eps6 < g s -> (forall r, 0 < g r < 1) -> D s (fun r => ln (clip eps6 1 (g r))) (/ g s * l')).
  { intros g l' Hg Hs Bg. destruct (D_near _ _ _ (g s - eps6) Hg ltac:(lra)) as [d [Hd Near]]. apply (D_local s (fun r => ln (g r))).
    - exists d. split; [assumption|]. intros r Hr. specialize (Near r Hr). apply Rabs_def2 in Near. rewrite clip_id; [reflexivity|]. specialize (Bg r). lra.
    - apply (D_ln s g); [assumption|]. apply Bg. }
  apply (D_eq _ _ ((1 - t) * - / (1 - f s) * l + t * / f s * l)); [|lra].
  apply (D_plus s (fun s => (1 - t) * ln (clip eps6 1 (1 - f s))) (fun s => t * ln (clip eps6 1 (f s)))).
  - destruct H1 as [->|H1].
    + apply (D_ext s (fun _ => 0) _ 0); [intros; lra | lra | apply D_const].
    + apply (D_eq _ _ ((1 - t) * (/ (1 - f s) * (0 - l)))); [|lra]. apply (D_scal s (1 - t) (fun s => ln (clip eps6 1 (1 - f s)))). apply (L (fun s => 1 - f s)); [assumption | assumption | intros r; specialize (B r); lra].
  - destruct H0 as [->|H0].
    + apply (D_ext s (fun _ => 0) _ 0); [intros; lra | lra | apply D_const].
    + rewrite Rmult_assoc. apply (D_scal s t (fun s => ln (clip eps6 1 (f s)))). now apply L.
Qed.
Theorem C40_sigmoid : forall rows cols s0 (x : R -> mat) x' t dx dloss, curve2 s0 rows cols x x' ->
  (forall i j, (i < rows)%nat -> (j < cols)%nat -> let p := fst (sigmoid_ce_forward (x s0) t) i j in
     (t i j = 0 \/ 1 / 1000000 < p) /\ (t i j = 1 \/ 1 / 1000000 < 1 - p)) ->
  D s0 (fun s => pair2 rows cols dloss (snd (sigmoid_ce_forward (x s) t)))
       (pair2 rows cols (msub (sigmoid_ce_backward (fst (sigmoid_ce_forward (x s0) t)) t dx dloss) dx) x').
Proof.
  intros rows cols s0 x x' t dx dloss Hx Hp. cbn [sigmoid_ce_forward fst snd] in *.
  set (y := fun i j : nat => act_f Sigmoid (x s0 i j)).
  apply (D_pair2 s0 rows cols dloss (fun s i j => -1 * ce_loss (act_f Sigmoid (x s i j)) (t i j))
           (fun i j => -1 * (((1 - t i j) * - / (1 - y i j) + t i j * / y i j) * (act_deriv Sigmoid (y i j) 1 * x' i j)))).
  - intros i j Hi Hj. apply (D_scal s0 (-1) (fun s => ce_loss (act_f Sigmoid (x s i j)) (t i j))).
    apply (ce_loss_D s0 (fun s => act_f Sigmoid (x s i j))).
    + apply (D_act Sigmoid s0 (fun s => x s i j)); [now apply Hx | discriminate].
    + now apply Hp.
    + now apply Hp.
    + intros r. apply C38_sigmoid.
  - apply pair2_ext. intros i j _ _. unfold msub, sigmoid_ce_backward, y. destruct (C38_sigmoid (x s0 i j)) as [B _]. cbn [act_deriv]. set (p := act_f Sigmoid (x s0 i j)) in *. field. lra.
Qed.
Print Assumptions C40_sigmoid.

(** BinomialCrossEntropy: exact where the clipping of y - y² does not act. *)
Lemma ce_loss_D_clip s f l t : D s f l -> eps6 <= f s - f s * f s ->
  D s (fun s => ce_loss (f s) t) (((1 - t) * - / (1 - f s) + t * / f s) * l).
Proof.
  intros H B. assert (E := eps6_pos). assert (P : eps6 < f s < 1 - eps6).
  { assert (Q : 0 < f s) by nra. assert (Q1 : f s < 1) by nra. split; nra. }
  unfold ce_loss. destruct (D_near _ _ _ (Rmin (f s - eps6) (1 - eps6 - f s)) H) as [d [Hd Near]]; [apply Rmin_pos; lra|].
  apply (D_local s (fun r => (1 - t) * ln (1 - f r) + t * ln (f r))).
  - exists d. split; [assumption|]. intros r Hr. specialize (Near r Hr). assert (M1 := Rmin_l (f s - eps6) (1 - eps6 - f s)). assert (M2 := Rmin_r (f s - eps6) (1 - eps6 - f s)).
    apply Rabs_def2 in Near. rewrite !clip_id by lra. reflexivity.
  - apply (D_eq _ _ ((1 - t) * (/ (1 - f s) * (0 - l)) + t * (/ f s * l))); [|lra].
    apply (D_plus s (fun r => (1 - t) * ln (1 - f r)) (fun r => t * ln (f r))).
    + apply (D_scal s (1 - t) (fun r => ln (1 - f r))). apply (D_ln s (fun r => 1 - f r)); [|lra]. apply (D_minus s (fun _ => 1) f); [apply D_const | assumption].
    + apply (D_scal s t (fun r => ln (f r))). apply (D_ln s f); [assumption | lra].
Qed.
Theorem C40_binomial : forall rows cols s0 (y : R -> mat) y' t dy dsum, curve2 s0 rows cols y y' ->
  (forall i j, (i < rows)%nat -> (j < cols)%nat -> 1 / 1000000 <= y s0 i j - y s0 i j * y s0 i j) ->
  D s0 (fun s => pair1 rows dsum (binomial_forward cols (y s) t))
       (pair2 rows cols (msub (binomial_backward (y s0) t dy dsum) dy) y').
Proof.
  intros rows cols s0 y y' t dy dsum Hy Hp.
  apply (D_eq _ _ (Rsum rows (fun i => dsum i * (-1 * Rsum cols (fun j => ((1 - t i j) * - / (1 - y s0 i j) + t i j * / y s0 i j) * y' i j))))).
  - apply (D_sum s0 rows (fun i s => dsum i * binomial_forward cols (y s) t i)). intros i Hi. apply (D_scal s0 (dsum i) (fun s => binomial_forward cols (y s) t i)).
    apply (D_scal s0 (-1) (fun s => Rsum cols (fun j => ce_loss (y s i j) (t i j)))). apply (D_sum s0 cols (fun j s => ce_loss (y s i j) (t i j))). intros j Hj.
    apply (ce_loss_D_clip s0 (fun s => y s i j)); [now apply Hy | now apply Hp].
  - apply Rsum_ext; intros i Hi. rewrite <- !Rsum_scal. apply Rsum_ext; intros j Hj. unfold msub, binomial_backward.
    specialize (Hp i j Hi Hj). set (v := y s0 i j) in *. assert (E := eps6_pos). fold eps6 in Hp. rewrite clip_id by nra. field. nra.
Qed.
Print Assumptions C40_binomial.

(** Where the clipping acts the loss is constant, but the deltas are not zero. *)
Theorem C40_clipping_refuted : forall n s0 (x : R -> vec) x' t, curve1 s0 (S n) x x' -> (t <= n)%nat ->
  softmax n (x s0) t < 1 / 1000000 ->
  D s0 (fun s => snd (softmax_ce_forward n (fun _ => x s) (fun _ => t)) O) 0 /\
  softmax_ce_backward (fst (softmax_ce_forward n (fun _ => x s0) (fun _ => t))) (fun _ => t) (fun _ _ => 0) (fun _ => 1) O t < - (999 / 1000).
Proof.
  intros n s0 x x' t Hx Ht Hp. fold eps6 in Hp. split.
  - cbn [softmax_ce_forward snd]. assert (HE : exists l, D s0 (fun s => softmax n (x s) t) l).
    { exists (exp (- (lse n (x s0) - x s0 t)) * - (Rsum (S n) (fun k => softmax n (x s0) k * x' k) - x' t)).
      apply (D_ext s0 (fun s => exp (- (lse n (x s) - x s t))) _ (exp (- (lse n (x s0) - x s0 t)) * - (Rsum (S n) (fun k => softmax n (x s0) k * x' k) - x' t))); [intros r; rewrite softmax_lse; f_equal; lra | reflexivity |].
      apply (D_exp s0 (fun s => - (lse n (x s) - x s t))). apply (D_opp s0 (fun s => lse n (x s) - x s t)). apply (D_minus s0 (fun s => lse n (x s)) (fun s => x s t)); [now apply D_lse | apply Hx; lia]. }
    destruct HE as [l HE]. destruct (D_near _ _ _ (eps6 - softmax n (x s0) t) HE ltac:(lra)) as [d [Hd Near]].
    apply (D_local s0 (fun _ => -1 * ln eps6)); [|apply D_const]. exists d. split; [assumption|]. intros r Hr. specialize (Near r Hr). apply Rabs_def2 in Near. rewrite clip_low by lra. reflexivity.
  - unfold softmax_ce_backward. cbn [softmax_ce_forward fst]. rewrite Nat.eqb_refl. unfold eps6 in Hp. lra.
Qed.
Print Assumptions C40_clipping_refuted.
Example C40_clipping_case : softmax 1 (fun k => match k with O => 0 | _ => ln 10000000 end) O < 1 / 1000000.
Proof. rewrite softmax_plain. cbn [Rsum]. rewrite exp_0, exp_ln by lra. lra. Qed.
Example C40_softmax_case : curve2 0 1 2 (fun s _ j => match j with O => s | _ => 0 end) (fun _ j => match j with O => 1 | _ => 0 end) /\
  1 / 1000000 < fst (softmax_ce_forward 1 (fun _ j => match j with O => 0 | _ => 0 end) (fun _ => 1%nat)) O 1%nat /\
  softmax_ce_backward (fst (softmax_ce_forward 1 (fun _ j => 0) (fun _ => 1%nat))) (fun _ => 1%nat) (fun _ _ => 3) (fun _ => 4) O 1%nat = 1.
Proof.
  split; [intros i [|j] _ _; [apply D_id | apply D_const]|]. unfold softmax_ce_backward, softmax_ce_forward. cbn [fst Nat.eqb]. rewrite !softmax_plain. cbn [Rsum]. rewrite exp_0. lra.
Qed.

(** For inputs with more than one feature dimension the backward pass of
    BinomialCrossEntropy stops with an AssertionError. *)
Theorem C40_binomial_shape : forall T B features, features <> [] -> (binomial_backward_ok T B features = true <-> length features = 1%nat).
Proof.
  intros T B features Hne. unfold binomial_backward_ok, broadcast_ok. destruct features as [|f [|g r]]; [congruence| |]; cbn [firstn skipn app length Nat.add].
  - destruct (list_eq_dec Nat.eq_dec [T; B; 1%nat] [T; B; 1%nat]) as [E|N]; [split; reflexivity | now contradiction N].
  - destruct (list_eq_dec Nat.eq_dec (T :: B :: 1%nat :: g :: r) [T; B; 1%nat]) as [E|N]; split; intros H; try discriminate E; discriminate H.
Qed.
Print Assumptions C40_binomial_shape.
Theorem C40_binomial_shape_refuted : binomial_backward_ok 5 3 [2; 4]%nat = false.
Proof. reflexivity. Qed.
Print Assumptions C40_binomial_shape_refuted.
Example C40_binomial_case : binomial_backward (fun _ _ => / 2) (fun _ _ => 1) (fun _ _ => 5) (fun _ => 3) O O = -1.
Proof. unfold binomial_backward. rewrite clip_id by (unfold eps6; lra). lra. Qed.
Example C40_sigmoid_case : sigmoid_ce_backward (fst (sigmoid_ce_forward (fun _ _ => 0) (fun _ _ => 1))) (fun _ _ => 1) (fun _ _ => 5) (fun _ _ => 4) O O = 3.
Proof. unfold sigmoid_ce_backward, sigmoid_ce_forward. cbn [fst]. rewrite sigmoid_eq, Ropp_0, exp_0. lra. Qed.
