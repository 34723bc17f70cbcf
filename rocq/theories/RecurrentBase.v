(** Lemmas about flattened sequences, adjoints and telescoping sums for the proofs about
    recurrent layers. *)
From Coq Require Import Reals Lra Lia Arith List.
From Verif Require Import NumBase NumpyModel NumpyProps LayersProps RecurrentModel.
Import ListNotations.
Open Scope R_scope.

Lemma Rsum_flat n B (f : nat -> nat -> R) : Rsum (n * B) (fun r => f (r / B)%nat (r mod B)%nat) = Rsum n (fun t => Rsum B (f t)).
Proof.
  destruct (Nat.eq_dec B 0) as [->|N]; [rewrite Nat.mul_0_r; cbn; symmetry; apply Rsum_zero; reflexivity|].
  induction n as [|n IH]; [reflexivity|]. replace (S n * B)%nat with (n * B + B)%nat by lia. rewrite Rsum_app, IH. cbn [Rsum]. f_equal.
  apply Rsum_ext. intros i Hi. rewrite (Nat.add_comm (n * B) i). rewrite Nat.div_add, Nat.mod_add by assumption. rewrite Nat.div_small, Nat.mod_small by assumption. reflexivity.
Qed.
Lemma pair2_flat n B m (a b : seq) : pair2 (n * B) m (flat B a) (flat B b) = Rsum n (fun t => pair2 B m (a t) (b t)).
Proof. unfold pair2, flat. apply (Rsum_flat n B (fun t i => Rsum m (fun j => a t i j * b t i j))). Qed.
Lemma dot_flat n B (d x : seq) j k : dot_mm (n * B) (trans (flat B d)) (flat B x) j k = Rsum n (fun t => dot_mm B (trans (d t)) (x t) j k).
Proof. unfold dot_mm, trans, flat. apply (Rsum_flat n B (fun t i => d t i j * x t i k)). Qed.
Lemma sum0_flat n B (d : seq) j : sum0 (n * B) (flat B d) j = Rsum n (fun t => sum0 B (d t) j).
Proof. unfold sum0, flat. apply (Rsum_flat n B (fun t i => d t i j)). Qed.
Lemma pair2_sum n m k (G : nat -> mat) (v : mat) : pair2 m k (fun i j => Rsum n (fun t => G t i j)) v = Rsum n (fun t => pair2 m k (G t) v).
Proof.
  unfold pair2. rewrite (Rsum_swap n m). apply Rsum_ext; intros i Hi. rewrite (Rsum_swap n k). apply Rsum_ext; intros j Hj. now rewrite Rsum_scal_r.
Qed.
Lemma pair1_sum n m (G : nat -> vec) (v : vec) : pair1 m (fun j => Rsum n (fun t => G t j)) v = Rsum n (fun t => pair1 m (G t) v).
Proof. unfold pair1. rewrite (Rsum_swap n m). apply Rsum_ext; intros j Hj. now rewrite Rsum_scal_r. Qed.

(** Adjoints, for one time step *)
Lemma adj_in B n m (d W v : mat) : pair2 B n d (dot_mm m v (trans W)) = pair2 B m (dot_mm n d W) v.
Proof.
  assert (E := affine_adjoint B m n d W v v (fun _ _ => 0) (fun _ => 0)).
  replace (pair2 n m _ (fun _ _ => 0)) with 0 in E by (symmetry; apply Rsum_zero; intros; apply Rsum_zero; intros; lra).
  replace (pair1 n _ (fun _ => 0)) with 0 in E by (symmetry; apply Rsum_zero; intros; lra).
  rewrite !Rplus_0_r in E. rewrite <- E. apply pair2_ext. intros i j _ _. f_equal. rewrite Rplus_0_r. unfold dot_mm, trans. apply Rsum_ext. intros; lra.
Qed.
Lemma adj_W B n m (d x W' : mat) : pair2 B n d (dot_mm m x (trans W')) = pair2 n m (dot_mm B (trans d) x) W'.
Proof.
  assert (E := affine_adjoint B m n d (fun _ _ => 0) x (fun _ _ => 0) W' (fun _ => 0)).
  replace (pair2 B m _ (fun _ _ => 0)) with 0 in E by (symmetry; apply Rsum_zero; intros; apply Rsum_zero; intros; lra).
  replace (pair1 n _ (fun _ => 0)) with 0 in E by (symmetry; apply Rsum_zero; intros; lra).
  rewrite Rplus_0_r, Rplus_0_l in E. rewrite <- E. apply pair2_ext. intros i j _ _. f_equal. rewrite Rplus_0_r. unfold dot_mm, trans. apply Rsum_ext. intros; lra.
Qed.
Lemma adj_b B n (d : mat) (b' : vec) : pair2 B n d (fun _ j => b' j) = pair1 n (sum0 B d) b'.
Proof. unfold pair2, pair1, sum0. rewrite Rsum_swap. apply Rsum_ext; intros j Hj. now rewrite Rsum_scal_r. Qed.
Lemma adj_p B n (d c : mat) (p' : vec) : pair2 B n d (fun i j => c i j * p' j) = pair1 n (sum0 B (fun i j => c i j * d i j)) p'.
Proof. unfold pair2, pair1, sum0. rewrite Rsum_swap. apply Rsum_ext; intros j Hj. rewrite <- Rsum_scal_r. apply Rsum_ext. intros; lra. Qed.
Lemma pair2_add_r m n d u v : pair2 m n d (fun i j => u i j + v i j) = pair2 m n d u + pair2 m n d v.
Proof. rewrite pair2_plus. apply Rsum2_ext. intros; lra. Qed.
Lemma pair2_add_l m n d e u : pair2 m n (fun i j => d i j + e i j) u = pair2 m n d u + pair2 m n e u.
Proof. rewrite pair2_plus. apply Rsum2_ext. intros; lra. Qed.
Lemma pair2_0_l m n u : pair2 m n (fun _ _ => 0) u = 0.
Proof. apply Rsum_zero; intros; apply Rsum_zero; intros; lra. Qed.
Lemma pair2_msub m n a b u : pair2 m n (msub a b) u = pair2 m n a u - pair2 m n b u.
Proof. unfold pair2. rewrite <- Rsum_minus. apply Rsum_ext; intros i Hi. rewrite <- Rsum_minus. apply Rsum_ext; intros j Hj. unfold msub. lra. Qed.

(** Deltas passed from step to step: the weighted changes of the outputs [o] add up to
    the changes [c] caused within the steps, plus that caused by the context [b O]. *)
Lemma telescope T1 (a b c o : nat -> R) : (forall t, (t < T1)%nat -> a t = c t + b t) -> (forall t, (t < T1)%nat -> a t = o t + b (S t)) -> b T1 = 0 ->
  Rsum T1 o = Rsum T1 c + b O.
Proof.
  intros H1 H2 H3. assert (G : forall n, (n <= T1)%nat -> Rsum n o + b n = Rsum n c + b O).
  { induction n as [|n IH]; intros L; [cbn; lra|]. cbn [Rsum]. assert (A := H1 n ltac:(lia)). assert (B := H2 n ltac:(lia)). assert (C := IH ltac:(lia)). lra. }
  assert (A := G T1 (le_n T1)). lra.
Qed.
Lemma D_sum3 s n m k (f : R -> seq) (l : seq) (dy : seq) :
  (forall t i j, (t < n)%nat -> (i < m)%nat -> (j < k)%nat -> D s (fun x => f x t i j) (l t i j)) ->
  D s (fun x => Rsum n (fun t => pair2 m k (dy t) (f x t))) (Rsum n (fun t => pair2 m k (dy t) (l t))).
Proof.
  intros H. apply (D_sum s n (fun t x => pair2 m k (dy t) (f x t))). intros t Ht. apply (D_pair2 s m k (dy t) (fun x => f x t) (l t)); [|reflexivity]. intros i j Hi Hj. now apply H.
Qed.
(** derivative of a product with a transposed matrix *)
Lemma D_dot s m n k (x W : R -> mat) (x' W' : mat) i j : curve2 s m n x x' -> curve2 s k n W W' -> (i < m)%nat -> (j < k)%nat ->
  D s (fun s => dot_mm n (x s) (trans (W s)) i j) (dot_mm n x' (trans (W s)) i j + dot_mm n (x s) (trans W') i j).
Proof.
  intros Hx HW Hi Hj. apply (D_eq _ _ (Rsum n (fun l => x' i l * W s j l + x s i l * W' j l))).
  - apply (D_sum s n (fun l s => x s i l * trans (W s) l j)). intros l Hl. apply (D_mult s (fun s => x s i l) (fun s => W s j l)); [now apply Hx | now apply HW].
  - unfold dot_mm, trans. now rewrite <- Rsum_plus.
Qed.
(** The clock *)
Lemma trunc_IZR z : trunc (IZR z) = z.
Proof.
  assert (I : forall z, Int_part (IZR z) = z). { intros w. unfold Int_part. rewrite <- (tech_up (IZR w) (w + 1)); [lia| |]; rewrite plus_IZR; lra. }
  unfold trunc. destruct (Rle_dec 0 (IZR z)); [apply I|]. rewrite <- opp_IZR, I. lia.
Qed.
Lemma fmod_0 x y : y <> 0 -> (fmod x y = 0 <-> exists z, x = y * IZR z).
Proof.
  intros Hy. unfold fmod. split.
  - intros H. exists (trunc (x / y)). lra.
  - intros [z ->]. replace (y * IZR z / y) with (IZR z) by (field; assumption). rewrite trunc_IZR. lra.
Qed.
Lemma stays_spec t y : stays t y = false <-> y <> 0 /\ exists z, INR t = y * IZR z.
Proof.
  unfold stays. destruct (Req_EM_T y 0) as [E|E]; [split; [discriminate | intros [N _]; contradiction]|].
  rewrite <- (fmod_0 (INR t) y E). destruct (Req_EM_T (fmod (INR t) y) 0); split; try discriminate; intuition.
Qed.
