(** Activation functions and softmax: C38, C39. *)
From Coq Require Import Reals Lra Lia Arith List FunctionalExtensionality.
From Verif Require Import NumBase NumpyModel.
Import ListNotations.
Open Scope R_scope.

Lemma exp_pos_nz x : exp x <> 0.
Proof. assert (H := exp_pos x). lra. Qed.
Lemma exp_neg x : exp (- x) = / exp x.
Proof. apply exp_Ropp. Qed.
Lemma sigmoid_eq x : act_f Sigmoid x = 1 / (1 + exp (- x)).
Proof.
  cbn. destruct (Rle_dec 0 x); [reflexivity|]. rewrite exp_neg. assert (H := exp_pos x). field. lra.
Qed.
Lemma gt0_pos x : 0 < x -> gt0 x = 1.
Proof. unfold gt0. destruct (Rlt_dec 0 x); [reflexivity | contradiction]. Qed.
Lemma gt0_neg x : x <= 0 -> gt0 x = 0.
Proof. unfold gt0. destruct (Rlt_dec 0 x); [lra | reflexivity]. Qed.
Lemma ge0_pos x : 0 <= x -> ge0 x = 1.
Proof. unfold ge0. destruct (Rle_dec 0 x); [reflexivity | contradiction]. Qed.
Lemma ge0_neg x : x < 0 -> ge0 x = 0.
Proof. unfold ge0. destruct (Rle_dec 0 x); [lra | reflexivity]. Qed.
Lemma lt0_neg x : x < 0 -> lt0 x = 1.
Proof. unfold lt0. destruct (Rlt_dec x 0); [reflexivity | contradiction]. Qed.
Lemma lt0_pos x : 0 <= x -> lt0 x = 0.
Proof. unfold lt0. destruct (Rlt_dec x 0); [lra | reflexivity]. Qed.

(** ** C38 *)
Lemma exp_lt_1 x : x < 0 -> exp x < 1.
Proof. intros H. rewrite <- exp_0. now apply exp_increasing. Qed.
Lemma act_deriv_linear a y dy : act_deriv a y dy = dy * act_deriv a y 1.
Proof. destruct a; cbn; lra. Qed.

Lemma Rabs_between x s d : Rabs (x - s) < d -> s - d < x < s + d.
Proof. intros H. apply Rabs_def2 in H. lra. Qed.

Lemma el_at_0 : D 0 (act_f El) 1.
Proof.
  intros eps Heps. destruct (derivable_pt_lim_exp_0 eps Heps) as [d Hd]. exists d. intros h Nh Lh. cbn [act_f].
  rewrite Rplus_0_l. replace (0 * ge0 0 + (exp 0 - 1) * lt0 0) with 0 by (rewrite exp_0; lra).
  destruct (Rle_lt_dec 0 h) as [P|N].
  - rewrite ge0_pos, lt0_pos by assumption. replace ((h * 1 + (exp h - 1) * 0 - 0) / h - 1) with 0 by (field; assumption). now rewrite Rabs_R0.
  - rewrite ge0_neg, lt0_neg by assumption. specialize (Hd h Nh Lh). rewrite Rplus_0_l, exp_0 in Hd.
    replace ((h * 0 + (exp h - 1) * 1 - 0) / h - 1) with ((exp h - 1) / h - 1) by (field; assumption). assumption.
Qed.

(** Except for the kink of rel at 0, multiplying by the factor computed from the
    output is multiplying by the derivative. *)
Theorem C38_derivative : forall a x dy, (a = Rel -> x <> 0) -> exists l, derivable_pt_lim (act_f a) x l /\ act_deriv a (act_f a x) dy = dy * l.
Proof.
  intros a x dy N. exists (act_deriv a (act_f a x) 1). split; [|apply act_deriv_linear]. change (D x (act_f a) (act_deriv a (act_f a x) 1)). destruct a.
  - apply (D_ext x (fun x => 1 / (1 + exp (- x))) _ ((0 * (1 + exp (- x)) - 1 * (0 + exp (- x) * -1)) / (1 + exp (- x))²)).
    + intros y. symmetry. apply sigmoid_eq.
    + cbn [act_deriv]. rewrite sigmoid_eq. assert (H := exp_pos (- x)). unfold Rsqr. field. lra.
    + apply (D_div x (fun _ => 1) (fun y => 1 + exp (- y))); [apply D_const | apply (D_plus x (fun _ => 1) (fun y => exp (- y))); [apply D_const | apply (D_exp x (fun y => - y)); apply (D_ext x (fun y => - y) _ (- 1)); [reflexivity | lra | apply (D_opp x (fun y => y)), D_id]] | ].
      assert (H := exp_pos (- x)). lra.
  - specialize (N eq_refl). cbn [act_deriv]. destruct (Rle_lt_dec 0 x) as [P|P].
    + assert (P' : 0 < x) by lra. replace (act_f Rel x) with x by (cbn; rewrite gt0_pos by assumption; lra). rewrite gt0_pos by assumption. rewrite Rmult_1_l.
      apply (D_local x (fun y => y)); [|apply D_id]. exists x. split; [assumption|]. intros y Hy. apply Rabs_between in Hy. cbn. rewrite gt0_pos by lra. lra.
    + replace (act_f Rel x) with 0 by (cbn; rewrite gt0_neg by lra; lra). rewrite gt0_neg by lra. rewrite Rmult_0_r.
      apply (D_local x (fun y => 0)); [|apply D_const]. exists (- x). split; [lra|]. intros y Hy. apply Rabs_between in Hy. cbn. rewrite gt0_neg by lra. lra.
  - assert (H := exp_pos x). assert (H' := exp_pos (- x)).
    apply (D_ext x (fun x => (exp x - exp (- x)) / (exp x + exp (- x))) _ (((exp x * 1 - exp (- x) * -1) * (exp x + exp (- x)) - (exp x - exp (- x)) * (exp x * 1 + exp (- x) * -1)) / (exp x + exp (- x))²)).
    + reflexivity.
    + cbn. unfold Rsqr. field. lra.
    + assert (E1 := D_exp x (fun y => y) 1 (D_id x)). assert (E2 : D x (fun y => exp (- y)) (exp (- x) * -1)).
      { apply (D_exp x (fun y => - y)). apply (D_ext x (fun y => - y) _ (- 1)); [reflexivity | lra | apply (D_opp x (fun y => y)), D_id]. }
      apply (D_div x (fun y => exp y - exp (- y)) (fun y => exp y + exp (- y))); [now apply (D_minus x exp) | now apply (D_plus x exp) | lra].
  - apply D_id.
  - cbn [act_deriv]. destruct (Rtotal_order x 0) as [P|[->|P]].
    + assert (E := exp_lt_1 x P). replace (act_f El x) with (exp x - 1) by (cbn; rewrite ge0_neg, lt0_neg by assumption; lra).
      rewrite ge0_neg, lt0_neg by lra. apply (D_local x (fun y => exp y - 1)).
      * exists (- x). split; [lra|]. intros y Hy. apply Rabs_between in Hy. cbn. rewrite ge0_neg, lt0_neg by lra. lra.
      * apply (D_ext x (fun y => exp y - 1) _ (exp x * 1 - 0)); [reflexivity | lra |]. apply (D_minus x exp (fun _ => 1)); [apply (D_exp x (fun y => y)), D_id | apply D_const].
    + replace (act_f El 0) with 0 by (cbn; rewrite exp_0; lra). rewrite ge0_pos, lt0_pos by lra. replace (1 * 1 + 1 * (0 + 1) * 0) with 1 by lra. apply el_at_0.
    + replace (act_f El x) with x by (cbn; rewrite ge0_pos, lt0_pos by lra; lra). rewrite ge0_pos, lt0_pos by lra. replace (1 * 1 + 1 * (x + 1) * 0) with 1 by lra.
      apply (D_local x (fun y => y)); [|apply D_id]. exists x. split; [assumption|]. intros y Hy. apply Rabs_between in Hy. cbn. rewrite ge0_pos, lt0_pos by lra. lra.
Qed.
Print Assumptions C38_derivative.

(** At the kink there is no derivative, so the statement above covers every point of
    differentiability. *)
Theorem C38_kink : forall l, ~ derivable_pt_lim (act_f Rel) 0 l.
Proof.
  intros l H. assert (H2 := H). destruct (H (1/2) ltac:(lra)) as [d Hd]. assert (P := cond_pos d). 
  assert (A := Hd (d / 2) ltac:(lra) ltac:(rewrite Rabs_right; lra)). assert (B := Hd (- (d / 2)) ltac:(lra) ltac:(rewrite Rabs_left; lra)).
  cbn [act_f] in A, B. rewrite !Rplus_0_l in A, B. rewrite gt0_pos in A by lra. rewrite (gt0_neg (- (d / 2))) in B by lra.
  replace ((d / 2 * 1 - 0 * gt0 0) / (d / 2) - l) with (1 - l) in A by (field; lra). replace ((- (d / 2) * 0 - 0 * gt0 0) / - (d / 2) - l) with (- l) in B by (field; lra).
  apply Rabs_def2 in A. apply Rabs_def2 in B. lra.
Qed.
Print Assumptions C38_kink.

Theorem C38_sigmoid : forall x,
  0 < act_f Sigmoid x < 1 /\
  act_f Sigmoid x = 1 / (1 + exp (- x)) /\ act_f Sigmoid x = exp x / (1 + exp x) /\
  act_f Sigmoid (- x) = 1 - act_f Sigmoid x.
Proof.
  intros x. rewrite !sigmoid_eq. assert (H := exp_pos (- x)). assert (H' := exp_pos x). split; [|split; [reflexivity|split]].
  - assert (A : 0 < / (1 + exp (- x))) by (apply Rinv_0_lt_compat; lra). unfold Rdiv. rewrite Rmult_1_l. split; [assumption|].
    rewrite <- Rinv_1 at 2. apply Rinv_lt_contravar; lra.
  - rewrite exp_neg. field. lra.
  - rewrite Ropp_involutive, exp_neg. field. lra.
Qed.
Print Assumptions C38_sigmoid.

(** Working in place gives the same values. *)
Theorem C38_inplace : forall a x, act_inplace a x = act_f a x.
Proof.
  intros [] x; try reflexivity. cbn [act_inplace]. unfold sigmoid_inplace. cbn [act_f]. destruct (Rle_dec 0 x) as [P|N].
  - destruct (C38_sigmoid x) as [B [E _]]. rewrite E in B. destruct (Rlt_dec _ 0); [lra | reflexivity].
  - destruct (Rlt_dec x 0); [reflexivity | lra].
Qed.
Print Assumptions C38_inplace.
Example C38_case : act_deriv El (act_f El (-1)) 3 = 3 * exp (-1) /\ act_deriv Rel (act_f Rel 2) 5 = 5.
Proof.
  split.
  - assert (E := exp_lt_1 (-1) ltac:(lra)). cbn. rewrite (ge0_neg (-1)), (lt0_neg (-1)) by lra. rewrite ge0_neg, lt0_neg by lra. lra.
  - cbn. rewrite (gt0_pos 2) by lra. rewrite gt0_pos by lra. lra.
Qed.

(** ** C39 *)
Lemma softmax_plain n x j : softmax n x j = exp (x j) / Rsum (S n) (fun k => exp (x k)).
Proof.
  unfold softmax. set (m := amax n x). assert (E : Rsum (S n) (fun k => exp (x k - m)) = Rsum (S n) (fun k => exp (x k)) * exp (- m)).
  { rewrite <- Rsum_scal_r. apply Rsum_ext. intros i _. now rewrite <- exp_plus. }
  rewrite E. unfold Rminus. rewrite exp_plus. assert (P : 0 < Rsum (S n) (fun k => exp (x k))) by (apply Rsum_pos; [lia | intros; apply exp_pos]).
  assert (H := exp_pos (- m)). field. lra.
Qed.
Lemma amax_ge n x j : (j <= n)%nat -> x j <= amax n x.
Proof.
  induction n as [|n IH]; intros L; cbn.
  - replace j with O by lia. lra.
  - destruct (Nat.eq_dec j (S n)) as [->|N]; [apply Rmax_r|]. eapply Rle_trans; [apply IH; lia | apply Rmax_l].
Qed.
(** A probability distribution, ordered like the inputs, unchanged by a common shift;
    and no exponent is positive, so nothing overflows. *)
Theorem C39_softmax : forall n x,
  (forall j, (j <= n)%nat -> 0 < softmax n x j <= 1) /\
  Rsum (S n) (softmax n x) = 1 /\
  (forall i j, (i <= n)%nat -> (j <= n)%nat -> (x i < x j <-> softmax n x i < softmax n x j)) /\
  (forall c j, (j <= n)%nat -> softmax n (fun k => x k + c) j = softmax n x j) /\
  (forall j, (j <= n)%nat -> softmax n x j = exp (x j) / Rsum (S n) (fun k => exp (x k))) /\
  (forall j, (j <= n)%nat -> exp (x j - amax n x) <= 1).
Proof.
  intros n x. assert (P : forall y, 0 < Rsum (S n) (fun k => exp (y k))) by (intros y; apply Rsum_pos; [lia | intros; apply exp_pos]).
  assert (S1 : Rsum (S n) (softmax n x) = 1).
  { rewrite (Rsum_ext (S n) (softmax n x) (fun j => exp (x j) * / Rsum (S n) (fun k => exp (x k)))) by (intros; apply softmax_plain).
    rewrite Rsum_scal_r. specialize (P x). field. lra. }
  assert (Pos : forall j, 0 < softmax n x j) by (intros j; rewrite softmax_plain; apply Rdiv_lt_0_compat; [apply exp_pos | apply P]).
  split; [|split; [exact S1|split; [|split; [|split]]]].
  - intros j Hj. split; [apply Pos|]. rewrite <- S1. clear - Pos Hj. revert Hj. generalize (softmax n x) Pos. intros f Pf Hj.
    replace (f j) with (Rsum (S n) (fun i => if Nat.eq_dec i j then f i else 0)).
    + apply Rsum_le. intros i _. specialize (Pf i). destruct (Nat.eq_dec i j); lra.
    + rewrite (Rsum_single (S n) j); [destruct (Nat.eq_dec j j); [reflexivity | congruence] | lia |]. intros i _ N. destruct (Nat.eq_dec i j); [congruence | reflexivity].
  - intros i j Hi Hj. rewrite !softmax_plain. specialize (P x). set (s := Rsum (S n) (fun k => exp (x k))) in *. assert (Q : 0 < / s) by now apply Rinv_0_lt_compat. unfold Rdiv. split; intros H.
    + apply Rmult_lt_compat_r; [assumption | now apply exp_increasing].
    + apply Rmult_lt_reg_r in H; [|assumption]. now apply exp_lt_inv.
  - intros c j Hj. rewrite !softmax_plain. rewrite (Rsum_ext (S n) (fun k => exp (x k + c)) (fun k => exp (x k) * exp c)) by (intros; apply exp_plus).
    rewrite Rsum_scal_r, exp_plus. specialize (P x). assert (H := exp_pos c). field. lra.
  - intros j _. apply softmax_plain.
  - intros j Hj. rewrite <- exp_0. assert (A := amax_ge n x j Hj). destruct (Req_dec (x j - amax n x) 0) as [->|N]; [lra|]. left. apply exp_increasing. lra.
Qed.
Print Assumptions C39_softmax.
Example C39_case : Rsum 3 (softmax 2 (fun i => INR i - 7)) = 1 /\ softmax 2 (fun i => INR i) 0%nat < softmax 2 (fun i => INR i) 2%nat.
Proof.
  split; [apply (C39_softmax 2)|]. destruct (C39_softmax 2 (fun i => INR i)) as [_ [_ [H _]]]. apply H; [lia | lia |]. cbn. lra.
Qed.
