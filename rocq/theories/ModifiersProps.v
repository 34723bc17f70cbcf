(** Value and gradient modifiers: C37. *)
From Coq Require Import Reals Lra Lia Arith List.
From Verif Require Import NumBase NumpyModel NumpyProps LayersProps ModifiersModel.
Import ListNotations.
Open Scope R_scope.

(** ** C37 *)
Theorem C37_clip : forall low high v i, low <= high ->
  low <= clip_values low high v i <= high /\
  (low <= v i <= high -> clip_values low high v i = v i) /\
  (v i < low -> clip_values low high v i = low) /\ (high < v i -> clip_values low high v i = high).
Proof.
  intros low high v i H. unfold clip_values, clip. assert (A := Rmax_r (v i) low). assert (A' := Rmax_l (v i) low). split; [|split; [|split]].
  - split; [apply Rmin_glb; lra | apply Rmin_r].
  - intros [H1 H2]. rewrite Rmax_left by assumption. now apply Rmin_left.
  - intros H1. rewrite Rmax_right by lra. now apply Rmin_left.
  - intros H1. apply Rmin_right. lra.
Qed.
Print Assumptions C37_clip.
(** With the bounds swapped nothing is clipped to [high, low]: every value becomes
    [high]. *)
Theorem C37_clip_swapped : forall low high v i, high < low -> clip_values low high v i = high.
Proof. intros low high v i H. unfold clip_values, clip. apply Rmin_right. assert (A := Rmax_r (v i) low). lra. Qed.
Print Assumptions C37_clip_swapped.
Example C37_clip_case : clip_values (-1) 1 (fun _ => 5) O = 1 /\ clip_values (-1) 1 (fun _ => -7) O = -1 /\ clip_values (-1) 1 (fun _ => / 2) O = / 2.
Proof.
  destruct (C37_clip (-1) 1 (fun _ => 5) O ltac:(lra)) as [_ [_ [_ A]]]. destruct (C37_clip (-1) 1 (fun _ => -7) O ltac:(lra)) as [_ [_ [B _]]].
  destruct (C37_clip (-1) 1 (fun _ => / 2) O ltac:(lra)) as [_ [C _]]. cbn in A, B, C. repeat split; [apply A | apply B | apply C]; lra.
Qed.

(** ConstrainL2Norm: every row is rescaled by a factor in (0,1] to a norm of at most the
    limit (exactly the limit if the norm was larger); rows within the limit are unchanged.
    The norm may exceed the limit by at most the largest floating point number. *)
Definition norm (cols : nat) (row : vec) : R := sqrt (Rsum cols (fun j => row j * row j)).
Lemma norm_nonneg cols row : 0 <= norm cols row.
Proof. apply sqrt_pos. Qed.
Lemma sq_nonneg cols (row : vec) : 0 <= Rsum cols (fun j => row j * row j).
Proof. apply Rsum_nonneg. intros j _. apply (Rle_0_sqr (row j)). Qed.
Lemma norm_scal cols row c : 0 <= c -> norm cols (fun j => row j * c) = norm cols row * c.
Proof.
  intros Hc. unfold norm. rewrite (Rsum_ext cols _ (fun j => row j * row j * (c * c))) by (intros; lra). rewrite Rsum_scal_r.
  rewrite sqrt_mult; [|apply sq_nonneg | nra]. now rewrite sqrt_square.
Qed.
Theorem C37_constrain : forall fmax limit dims cols m i, 0 < limit -> 1 <= fmax -> (2 <= dims)%nat ->
  norm cols (m i) <= fmax * limit ->
  let m1 := constrain_l2 fmax limit dims cols m in
  norm cols (m1 i) <= limit /\
  (norm cols (m i) <= limit -> forall j, m1 i j = m i j) /\
  (limit < norm cols (m i) -> norm cols (m1 i) = limit) /\
  exists c, 0 < c <= 1 /\ forall j, m1 i j = m i j * c.
Proof.
  intros fmax limit dims cols m i Hl Hf Hd Hn m1. set (N := norm cols (m i)) in *. assert (HN : 0 <= N) by apply norm_nonneg.
  assert (E : forall j, m1 i j = m i j / clip 1 fmax (1 / limit * N)).
  { intros j. unfold m1, constrain_l2. destruct (Nat.ltb_spec dims 2); [lia | reflexivity]. }
  assert (Q : 1 / limit * N <= fmax). { apply (Rmult_le_reg_l limit); [assumption|]. replace (limit * (1 / limit * N)) with N by (field; lra). lra. }
  destruct (Rle_lt_dec N limit) as [L|G].
  - assert (C1 : clip 1 fmax (1 / limit * N) = 1).
    { unfold clip. rewrite Rmax_right; [now apply Rmin_left|]. apply (Rmult_le_reg_l limit); [assumption|]. replace (limit * (1 / limit * N)) with N by (field; lra). lra. }
    assert (E' : forall j, m1 i j = m i j) by (intros j; rewrite E, C1; field).
    assert (EN : norm cols (m1 i) = N) by (unfold N, norm; f_equal; apply Rsum_ext; intros; now rewrite E').
    split; [lra|]. split; [intros _; exact E'|]. split; [lra|]. exists 1. split; [lra|]. intros j. rewrite E'. lra.
  - assert (C1 : clip 1 fmax (1 / limit * N) = 1 / limit * N).
    { unfold clip. rewrite Rmax_left; [now apply Rmin_left|]. apply (Rmult_le_reg_l limit); [assumption|]. replace (limit * (1 / limit * N)) with N by (field; lra). lra. }
    assert (Pc : 0 < limit / N) by (apply Rdiv_lt_0_compat; lra).
    assert (E' : forall j, m1 i j = m i j * (limit / N)) by (intros j; rewrite E, C1; field; lra).
    assert (EN : norm cols (m1 i) = limit).
    { transitivity (norm cols (fun j => m i j * (limit / N))); [unfold norm; f_equal; apply Rsum_ext; intros; now rewrite E'|].
      rewrite norm_scal by lra. fold N. field. lra. }
    split; [lra|]. split; [lra|]. split; [intros _; exact EN|]. exists (limit / N). split; [|exact E']. split; [assumption|].
    apply (Rmult_le_reg_r N); [lra|]. replace (limit / N * N) with limit by (field; lra). lra.
Qed.
Print Assumptions C37_constrain.
(** Biases (one dimension) are left alone. *)
Theorem C37_constrain_bias : forall fmax limit dims cols m, (dims < 2)%nat -> constrain_l2 fmax limit dims cols m = m.
Proof. intros fmax limit dims cols m H. unfold constrain_l2. now rewrite (proj2 (Nat.ltb_lt dims 2) H). Qed.
Print Assumptions C37_constrain_bias.
Example C37_constrain_case : let m := fun (i j : nat) => match j with O => 3 | _ => 4 end in
  norm 2 (m O) = 5 /\ norm 2 (constrain_l2 1000 1 2 2 m O) = 1.
Proof.
  assert (E : norm 2 (fun j => match j with O => 3 | _ => 4 end) = 5) by (unfold norm; cbn; replace (0 + 3 * 3 + 4 * 4) with (5 * 5) by lra; apply sqrt_square; lra).
  split; [exact E|]. destruct (C37_constrain 1000 1 2 2 (fun (i j : nat) => match j with O => 3 | _ => 4 end) O) as [_ [_ [A _]]]; [lra | lra | lia | rewrite E; lra |]. apply A. rewrite E. lra.
Qed.

(** MaskValues: zero where the mask is zero, unchanged where it is one; and nowhere else
    a non-zero value is lost. *)
Theorem C37_mask : forall mask v i,
  (mask i = 0 -> mask_values mask v i = 0) /\ (mask i = 1 -> mask_values mask v i = v i) /\
  (mask i <> 0 -> (mask_values mask v i = 0 <-> v i = 0)).
Proof.
  intros mask v i. unfold mask_values. split; [intros ->; lra|]. split; [intros ->; lra|]. intros N. split; [|intros ->; lra].
  intros H. apply Rmult_integral in H. destruct H; [assumption | contradiction].
Qed.
Print Assumptions C37_mask.
Example C37_mask_case : mask_values (fun i => INR i) (fun _ => 5) O = 0 /\ mask_values (fun i => INR i) (fun _ => 5) 1%nat = 5.
Proof. unfold mask_values. cbn. lra. Qed.

(** FreezeValues: whatever the values are before the calls, and also after a change of
    the handler, after every call they are the given ones, or those of the first call. *)
Theorem C37_freeze : forall given other view rest out,
  In out (freeze_calls (freeze_new given) ((other, view) :: rest)) -> out = match given with Some w => w | None => view end.
Proof.
  intros given other view rest out. set (w := match given with Some w => w | None => view end).
  assert (G : forall calls f, fz_weights f = Some w -> fz_device f = Some w -> In out (freeze_calls f calls) -> out = w).
  { induction calls as [|[o v] r IH]; intros [fw fd] Ew Ed H; cbn in Ew, Ed; subst; [destruct H|]. cbn [freeze_calls freeze_call fz_weights fz_device] in H.
    assert (Eo : (if o then w else w) = w) by now destruct o. rewrite Eo in H. destruct H as [<-|H]; [reflexivity|]. exact (IH (mkFreeze (Some w) (Some w)) eq_refl eq_refl H). }
  cbn [freeze_calls freeze_call freeze_new fz_weights fz_device]. fold w. intros [<-|H]; [now destruct given|].
  apply (G rest (mkFreeze (Some w) (Some w))); [reflexivity | reflexivity |]. unfold w in *. destruct given; exact H.
Qed.
Print Assumptions C37_freeze.
Theorem C37_freeze_all : forall given calls, length (freeze_calls (freeze_new given) calls) = length calls.
Proof.
  intros given calls. generalize (freeze_new given). induction calls as [|[o v] r IH]; intros f; cbn; [reflexivity|]. now rewrite IH.
Qed.
Print Assumptions C37_freeze_all.
Example C37_freeze_case : map (fun v => v O) (freeze_calls (freeze_new None) [(false, fun _ => 1); (false, fun _ => 2); (true, fun _ => 3)]) = [1; 1; 1].
Proof. reflexivity. Qed.

(** L1Decay adds a subgradient of factor * |p|: the derivative where there is one. *)
Theorem C37_l1 : forall n factor s0 (p : R -> vec) p' g, curve1 s0 n p p' -> (forall i, (i < n)%nat -> p s0 i <> 0) ->
  D s0 (fun s => factor * Rsum n (fun i => Rabs (p s i))) (pair1 n (fun i => l1_modifier factor (p s0) g i - g i) p').
Proof.
  intros n factor s0 p p' g Hp N. apply (D_eq _ _ (factor * Rsum n (fun i => sign (p s0 i) * p' i))).
  - apply (D_scal s0 factor (fun s => Rsum n (fun i => Rabs (p s i)))). apply (D_sum s0 n (fun i s => Rabs (p s i))). intros i Hi. apply (D_abs s0 (fun s => p s i)); auto.
  - unfold pair1. rewrite <- Rsum_scal. apply Rsum_ext. intros i Hi. unfold l1_modifier. lra.
Qed.
Print Assumptions C37_l1.
Theorem C37_l1_subgradient : forall factor p g i q, 0 <= factor ->
  factor * Rabs (p i) + (l1_modifier factor p g i - g i) * (q - p i) <= factor * Rabs q.
Proof.
  intros factor p g i q Hf. unfold l1_modifier. replace (g i + factor * sign (p i) - g i) with (factor * sign (p i)) by lra.
  assert (K : Rabs (p i) + sign (p i) * (q - p i) <= Rabs q).
  { unfold sign. destruct (Rlt_dec 0 (p i)); [|destruct (Rlt_dec (p i) 0)].
    - rewrite (Rabs_right (p i)) by lra. assert (A := Rle_abs q). lra.
    - rewrite (Rabs_left (p i)) by lra. assert (A := Rle_abs (- q)). rewrite Rabs_Ropp in A. lra.
    - replace (p i) with 0 by lra. rewrite Rabs_R0. assert (A := Rabs_pos q). lra. }
  nra.
Qed.
Print Assumptions C37_l1_subgradient.
(** L2Decay adds the derivative of factor/2 * p². *)
Theorem C37_l2 : forall n factor s0 (p : R -> vec) p' g, curve1 s0 n p p' ->
  D s0 (fun s => factor / 2 * Rsum n (fun i => p s i * p s i)) (pair1 n (fun i => l2_modifier factor (p s0) g i - g i) p').
Proof.
  intros n factor s0 p p' g Hp. apply (D_eq _ _ (factor / 2 * Rsum n (fun i => p' i * p s0 i + p s0 i * p' i))).
  - apply (D_scal s0 (factor / 2) (fun s => Rsum n (fun i => p s i * p s i))). apply (D_sum s0 n (fun i s => p s i * p s i)). intros i Hi. apply (D_mult s0 (fun s => p s i) (fun s => p s i)); auto.
  - unfold pair1. rewrite <- Rsum_scal. apply Rsum_ext. intros i Hi. unfold l2_modifier. lra.
Qed.
Print Assumptions C37_l2.
Example C37_decay_case : l1_modifier 2 (fun _ => -3) (fun _ => 1) O = -1 /\ l2_modifier 2 (fun _ => -3) (fun _ => 1) O = -5 /\ l1_modifier 2 (fun _ => 0) (fun _ => 1) O = 1.
Proof. unfold l1_modifier, l2_modifier, sign. destruct (Rlt_dec 0 (-3)); [lra|]. destruct (Rlt_dec (-3) 0); [|lra]. destruct (Rlt_dec 0 0); lra. Qed.
