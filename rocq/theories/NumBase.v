(** Finite sums of reals and derivatives along curves. *)
From Coq Require Import Reals Lra Lia Arith List FunctionalExtensionality.
Import ListNotations.
Open Scope R_scope.

(** Sum of [f 0], ..., [f (n-1)]. *)
Fixpoint Rsum (n : nat) (f : nat -> R) : R :=
  match n with O => 0 | S k => Rsum k f + f k end.

Lemma Rsum_ext n f g : (forall i, (i < n)%nat -> f i = g i) -> Rsum n f = Rsum n g.
Proof. induction n as [|n IH]; intros H; cbn; [reflexivity|]. rewrite IH, H; auto; intros; apply H; lia. Qed.
Lemma Rsum_plus n f g : Rsum n (fun i => f i + g i) = Rsum n f + Rsum n g.
Proof. induction n as [|n IH]; cbn; [lra|]. rewrite IH. lra. Qed.
Lemma Rsum_minus n f g : Rsum n (fun i => f i - g i) = Rsum n f - Rsum n g.
Proof. induction n as [|n IH]; cbn; [lra|]. rewrite IH. lra. Qed.
Lemma Rsum_scal n c f : Rsum n (fun i => c * f i) = c * Rsum n f.
Proof. induction n as [|n IH]; cbn; [lra|]. rewrite IH. lra. Qed.
Lemma Rsum_scal_r n c f : Rsum n (fun i => f i * c) = Rsum n f * c.
Proof. induction n as [|n IH]; cbn; [lra|]. rewrite IH. lra. Qed.
Lemma Rsum_zero n f : (forall i, (i < n)%nat -> f i = 0) -> Rsum n f = 0.
Proof. intros H. rewrite (Rsum_ext n f (fun _ => 0) H). clear. induction n; cbn; lra. Qed.
Lemma Rsum_const n c : Rsum n (fun _ => c) = INR n * c.
Proof. induction n as [|n IH]; [cbn; lra|]. rewrite S_INR. cbn [Rsum]. rewrite IH. lra. Qed.
Lemma Rsum_swap n m (f : nat -> nat -> R) : Rsum n (fun i => Rsum m (f i)) = Rsum m (fun j => Rsum n (fun i => f i j)).
Proof.
  induction n as [|n IH]; cbn [Rsum].
  - symmetry. now apply Rsum_zero.
  - rewrite IH. now rewrite <- Rsum_plus.
Qed.
Lemma Rsum_single n k (f : nat -> R) : (k < n)%nat -> (forall i, (i < n)%nat -> i <> k -> f i = 0) -> Rsum n f = f k.
Proof.
  induction n as [|n IH]; intros L H; [lia|]. cbn. destruct (Nat.eq_dec k n) as [->|N].
  - rewrite Rsum_zero; [lra|]. intros i Hi. apply H; lia.
  - rewrite IH; [rewrite (H n) by lia; lra | lia |]. intros i Hi Ne. apply H; lia.
Qed.
Lemma Rsum_le n f g : (forall i, (i < n)%nat -> f i <= g i) -> Rsum n f <= Rsum n g.
Proof. induction n as [|n IH]; intros H; cbn; [lra|]. assert (A := H n ltac:(lia)). assert (B := IH ltac:(intros; apply H; lia)). lra. Qed.
Lemma Rsum_nonneg n f : (forall i, (i < n)%nat -> 0 <= f i) -> 0 <= Rsum n f.
Proof. intros H. replace 0 with (Rsum n (fun _ => 0)) by now apply Rsum_zero. now apply Rsum_le. Qed.
Lemma Rsum_pos n f : (0 < n)%nat -> (forall i, (i < n)%nat -> 0 < f i) -> 0 < Rsum n f.
Proof.
  induction n as [|n IH]; intros L H; [lia|]. cbn. assert (A := H n ltac:(lia)). assert (B : 0 <= Rsum n f) by (apply Rsum_nonneg; intros i Hi; left; apply H; lia). lra.
Qed.
Lemma Rsum_app n m f : Rsum (n + m) f = Rsum n f + Rsum m (fun i => f (n + i)%nat).
Proof.
  induction m as [|m IH]; [rewrite Nat.add_0_r; cbn; lra|]. rewrite Nat.add_succ_r. cbn [Rsum]. rewrite IH. lra.
Qed.
Lemma Rsum_shift n f : Rsum (S n) f = f O + Rsum n (fun i => f (S i)).
Proof. change (S n) with (1 + n)%nat. rewrite Rsum_app. cbn. lra. Qed.
(** Reversal of the order of summation. *)
Lemma Rsum_rev n f : Rsum n f = Rsum n (fun i => f (n - 1 - i)%nat).
Proof.
  induction n as [|n IH]; [reflexivity|]. rewrite (Rsum_shift n (fun i => f (S n - 1 - i)%nat)). cbn [Rsum]. rewrite IH.
  replace (S n - 1 - 0)%nat with n by lia. rewrite (Rsum_ext n (fun i => f (S n - 1 - S i)%nat) (fun i => f (n - 1 - i)%nat)); [lra|].
  intros i Hi. f_equal. lia.
Qed.

(** ** Derivatives *)
(** [D s f l]: the curve [f] has the derivative [l] at [s]. *)
Definition D (s : R) (f : R -> R) (l : R) : Prop := derivable_pt_lim f s l.
Lemma D_ext s f g l l' : (forall x, f x = g x) -> l = l' -> D s f l -> D s g l'.
Proof. intros H <- Hf. replace g with f; [assumption|]. now apply functional_extensionality. Qed.
Lemma D_const s c : D s (fun _ => c) 0.
Proof. apply derivable_pt_lim_const. Qed.
Lemma D_id s : D s (fun x => x) 1.
Proof. apply derivable_pt_lim_id. Qed.
Lemma D_plus s f g l m : D s f l -> D s g m -> D s (fun x => f x + g x) (l + m).
Proof. intros. now apply (derivable_pt_lim_plus f g). Qed.
Lemma D_minus s f g l m : D s f l -> D s g m -> D s (fun x => f x - g x) (l - m).
Proof. intros. now apply (derivable_pt_lim_minus f g). Qed.
Lemma D_opp s f l : D s f l -> D s (fun x => - f x) (- l).
Proof. intros. now apply (derivable_pt_lim_opp f). Qed.
Lemma D_mult s f g l m : D s f l -> D s g m -> D s (fun x => f x * g x) (l * g s + f s * m).
Proof. intros. now apply (derivable_pt_lim_mult f g). Qed.
Lemma D_scal s c f l : D s f l -> D s (fun x => c * f x) (c * l).
Proof. intros. now apply (derivable_pt_lim_scal f c). Qed.
Lemma D_scal_r s c f l : D s f l -> D s (fun x => f x * c) (l * c).
Proof. intros H. apply (D_ext s (fun x => c * f x) _ (c * l)); [intros; lra | lra | now apply D_scal]. Qed.
Lemma D_comp s f g l m : D s f l -> D (f s) g m -> D s (fun x => g (f x)) (m * l).
Proof. intros. now apply (derivable_pt_lim_comp f g). Qed.
Lemma D_div s f g l m : D s f l -> D s g m -> g s <> 0 -> D s (fun x => f x / g x) ((l * g s - f s * m) / (g s)²).
Proof.
  intros Hf Hg N. apply (D_ext s (f / g)%F _ ((l * g s - m * f s) / Rsqr (g s))); [reflexivity | | now apply derivable_pt_lim_div].
  unfold Rdiv. f_equal. lra.
Qed.
Lemma D_exp s f l : D s f l -> D s (fun x => exp (f x)) (exp (f s) * l).
Proof. intros H. apply (D_comp s f exp l (exp (f s)) H). apply derivable_pt_lim_exp. Qed.
Lemma D_ln s f l : D s f l -> 0 < f s -> D s (fun x => ln (f x)) (/ f s * l).
Proof. intros H P. apply (D_comp s f ln l (/ f s) H). now apply derivable_pt_lim_ln. Qed.
Lemma D_sum s n (f : nat -> R -> R) l : (forall i, (i < n)%nat -> D s (f i) (l i)) -> D s (fun x => Rsum n (fun i => f i x)) (Rsum n l).
Proof.
  induction n as [|n IH]; intros H; cbn [Rsum]; [apply D_const|]. apply D_plus; [apply IH; intros; apply H; lia | apply H; lia].
Qed.
Lemma D_unique s f l m : D s f l -> D s f m -> l = m.
Proof. apply uniqueness_limite. Qed.

(** Derivatives only depend on the function near the point. *)
Lemma D_local s f g l : (exists d, 0 < d /\ forall x, Rabs (x - s) < d -> f x = g x) -> D s f l -> D s g l.
Proof.
  intros [d [Hd E]] H eps Heps. destruct (H eps Heps) as [d1 H1]. assert (P : 0 < Rmin d d1) by (apply Rmin_pos; [assumption | apply cond_pos]).
  exists (mkposreal _ P). intros h Nh Lh. cbn [pos] in Lh. assert (L1 := Rmin_l d d1). assert (L2 := Rmin_r d d1).
  rewrite <- !E; [apply H1; [assumption | lra] | |].
  - replace (s - s) with 0 by lra. rewrite Rabs_R0. assumption.
  - replace (s + h - s) with h by lra. lra.
Qed.
(** Differentiability implies continuity, as a neighbourhood statement. *)
Lemma D_near s f l (eps : R) : D s f l -> 0 < eps -> exists d, 0 < d /\ forall x, Rabs (x - s) < d -> Rabs (f x - f s) < eps.
Proof.
  intros H Heps. assert (C : continuity_pt f s) by (apply derivable_continuous_pt; exists l; exact H). destruct (C eps Heps) as [d [Hd Hc]].
  exists d. split; [assumption|]. intros x Hx. destruct (Req_dec x s) as [->|N]; [replace (f s - f s) with 0 by lra; now rewrite Rabs_R0|].
  apply (Hc x). split; [split; [exact I | congruence] | exact Hx].
Qed.
