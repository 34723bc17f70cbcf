(** Layers without time dependence: C41, C47. *)
From Coq Require Import Reals Lra Lia Arith List.
From Verif Require Import NumBase NumpyModel NumpyProps LayersModel.
Import ListNotations.
Open Scope R_scope.

(** The scalar product of two matrices: a weighted sum of outputs, or the change of it
    along a direction. *)
Definition pair1 (n : nat) (a b : vec) : R := Rsum n (fun i => a i * b i).
Definition pair2 (m n : nat) (a b : mat) : R := Rsum m (fun i => Rsum n (fun j => a i j * b i j)).
Definition msub (a b : mat) : mat := fun i j => a i j - b i j.
(** [x] is a curve of matrices (vectors) with derivative [x'] at [s0] *)
Definition curve1 (s0 : R) (n : nat) (x : R -> vec) (x' : vec) : Prop := forall i, (i < n)%nat -> D s0 (fun s => x s i) (x' i).
Definition curve2 (s0 : R) (m n : nat) (x : R -> mat) (x' : mat) : Prop :=
  forall i j, (i < m)%nat -> (j < n)%nat -> D s0 (fun s => x s i j) (x' i j).

(** ** Helpers *)
Lemma pair2_ext m n a b c d : (forall i j, (i < m)%nat -> (j < n)%nat -> a i j * b i j = c i j * d i j) -> pair2 m n a b = pair2 m n c d.
Proof. intros H. apply Rsum_ext; intros i Hi. apply Rsum_ext; intros j Hj. now apply H. Qed.
Lemma pair2_plus m n a b c d : pair2 m n a b + pair2 m n c d = Rsum m (fun i => Rsum n (fun j => a i j * b i j + c i j * d i j)).
Proof. unfold pair2. rewrite <- Rsum_plus. apply Rsum_ext; intros i Hi. now rewrite <- Rsum_plus. Qed.
Lemma Rsum2_ext m n (f g : mat) : (forall i j, (i < m)%nat -> (j < n)%nat -> f i j = g i j) -> Rsum m (fun i => Rsum n (f i)) = Rsum m (fun i => Rsum n (g i)).
Proof. intros H. apply Rsum_ext; intros i Hi. apply Rsum_ext; intros j Hj. now apply H. Qed.
Lemma D_sum2 s m n (f : R -> mat) (l : mat) : (forall i j, (i < m)%nat -> (j < n)%nat -> D s (fun x => f x i j) (l i j)) ->
  D s (fun x => Rsum m (fun i => Rsum n (f x i))) (Rsum m (fun i => Rsum n (l i))).
Proof. intros H. apply (D_sum s m (fun i x => Rsum n (f x i))). intros i Hi. apply (D_sum s n (fun j x => f x i j)). intros j Hj. now apply H. Qed.
Lemma D_pair2 s m n dy (f : R -> mat) (l : mat) t :
  (forall i j, (i < m)%nat -> (j < n)%nat -> D s (fun x => f x i j) (l i j)) -> pair2 m n dy l = t ->
  D s (fun x => pair2 m n dy (f x)) t.
Proof.
  intros H <-. apply (D_sum2 s m n (fun x i j => dy i j * f x i j) (fun i j => dy i j * l i j)). intros i j Hi Hj. apply (D_scal s (dy i j) (fun x => f x i j)). now apply H.
Qed.
Lemma D_eq s f l l' : D s f l -> l = l' -> D s f l'.
Proof. intros H <-. exact H. Qed.
Lemma D_act a s f l : D s f l -> (a = Rel -> f s <> 0) -> D s (fun x => act_f a (f x)) (act_deriv a (act_f a (f s)) 1 * l).
Proof.
  intros H N. destruct (C38_derivative a (f s) 1 N) as [k [Hk E]]. rewrite E, Rmult_1_l. exact (D_comp s f (act_f a) l k H Hk).
Qed.

(** The transposed products and the column sums are the adjoint of an affine map. *)
Lemma affine_adjoint rows nin nout (d W x x' W' : mat) (b' : vec) :
  pair2 rows nout d (fun i j => Rsum nin (fun k => x' i k * W j k + x i k * W' j k) + b' j)
  = pair2 rows nin (dot_mm nout d W) x' + pair2 nout nin (dot_mm rows (trans d) x) W' + pair1 nout (sum0 rows d) b'.
Proof.
  assert (E : pair2 rows nout d (fun i j => Rsum nin (fun k => x' i k * W j k + x i k * W' j k) + b' j)
    = Rsum rows (fun i => Rsum nout (fun j => Rsum nin (fun k => d i j * W j k * x' i k))) +
      Rsum rows (fun i => Rsum nout (fun j => Rsum nin (fun k => d i j * x i k * W' j k))) +
      Rsum rows (fun i => Rsum nout (fun j => d i j * b' j))).
  { unfold pair2. rewrite <- !Rsum_plus. apply Rsum_ext; intros i Hi. rewrite <- !Rsum_plus. apply Rsum_ext; intros j Hj.
    rewrite Rmult_plus_distr_l. f_equal. rewrite <- Rsum_scal, <- Rsum_plus. apply Rsum_ext; intros k Hk. lra. }
  rewrite E. f_equal; [f_equal|].
  - apply Rsum_ext; intros i Hi. rewrite Rsum_swap. apply Rsum_ext; intros k Hk. unfold dot_mm. rewrite <- Rsum_scal_r. reflexivity.
  - rewrite Rsum_swap. apply Rsum_ext; intros j Hj. rewrite Rsum_swap. apply Rsum_ext; intros k Hk. unfold dot_mm, trans. rewrite <- Rsum_scal_r. reflexivity.
  - rewrite Rsum_swap. apply Rsum_ext; intros j Hj. unfold sum0. rewrite <- Rsum_scal_r. reflexivity.
Qed.
Lemma D_affine s rows nin nout (x W : R -> mat) (b : R -> vec) (x' W' : mat) (b' : vec) i j :
  curve2 s rows nin x x' -> curve2 s nout nin W W' -> curve1 s nout b b' -> (i < rows)%nat -> (j < nout)%nat ->
  D s (fun s => dot_mm nin (x s) (trans (W s)) i j + b s j) (Rsum nin (fun k => x' i k * W s j k + x s i k * W' j k) + b' j).
Proof.
  intros Hx HW Hb Hi Hj. apply (D_plus s (fun s => dot_mm nin (x s) (trans (W s)) i j) (fun s => b s j)); [|now apply Hb].
  apply (D_sum s nin (fun k s => x s i k * trans (W s) k j)). intros k Hk. apply (D_mult s (fun s => x s i k) (fun s => W s j k)); [now apply Hx | now apply HW].
Qed.

(** ** C41 *)
(** FullyConnected: for all sizes, activation functions, values and directions.  The
    deltas are added to, whatever they contained; the gradients are set.  For rel no
    pre-activation may be at the kink. *)
Theorem C41_fully_connected : forall rows nin nout a s0 (x W : R -> mat) (b : R -> vec) x' W' b' din dout dW db,
  curve2 s0 rows nin x x' -> curve2 s0 nout nin W W' -> curve1 s0 nout b b' ->
  (a = Rel -> forall i j, (i < rows)%nat -> (j < nout)%nat -> Rsum nin (fun k => x s0 i k * W s0 j k) + b s0 j <> 0) ->
  let y := fun s => fc_forward nin a (W s) (b s) (x s) in
  let '(din1, dW1, db1) := fc_backward rows nout a (W s0) (x s0) (y s0) din dout dW db in
  D s0 (fun s => pair2 rows nout dout (y s)) (pair2 rows nin (msub din1 din) x' + pair2 nout nin dW1 W' + pair1 nout db1 b').
Proof.
  intros rows nin nout a s0 x W b x' W' b' din dout dW db Hx HW Hb HK. cbn zeta. unfold fc_backward.
  set (y0 := fc_forward nin a (W s0) (b s0) (x s0)).
  set (d := fun i j : nat => act_deriv a (y0 i j) (dout i j)).
  set (pre := fun s i j => dot_mm nin (x s) (trans (W s)) i j + b s j).
  assert (Hpre : forall i j, (i < rows)%nat -> (j < nout)%nat -> D s0 (fun s => pre s i j) (Rsum nin (fun k => x' i k * W s0 j k + x s0 i k * W' j k) + b' j))
    by (intros i j Hi Hj; now apply (D_affine s0 rows nin nout x W b x' W' b')).
  apply (D_pair2 s0 rows nout dout (fun s => fc_forward nin a (W s) (b s) (x s)) (fun i j => act_deriv a (y0 i j) 1 * (Rsum nin (fun k => x' i k * W s0 j k + x s0 i k * W' j k) + b' j))).
  - intros i j Hi Hj. apply (D_ext s0 (fun s => act_f a (pre s i j)) _ (act_deriv a (act_f a (pre s0 i j)) 1 * (Rsum nin (fun k => x' i k * W s0 j k + x s0 i k * W' j k) + b' j))).
    + intros s. unfold fc_forward. now rewrite C38_inplace.
    + unfold y0, fc_forward. now rewrite C38_inplace.
    + apply (D_act a s0 (fun s => pre s i j)); [now apply Hpre | intros ->; now apply HK].
  - rewrite (pair2_ext rows nin (msub (dot_add_mm nout d (W s0) din) din) x' (dot_mm nout d (W s0)) x') by (intros; unfold msub, dot_add_mm; lra).
    rewrite <- (affine_adjoint rows nin nout d (W s0) (x s0) x' W' b'). apply pair2_ext. intros i j Hi Hj. unfold d. rewrite (act_deriv_linear a (y0 i j) (dout i j)). lra.
Qed.
Print Assumptions C41_fully_connected.

(** dW and dbias are overwritten, not added to, unlike what all other layers do: for
    non-zero former contents the result is not the sum. *)
Theorem C41_fully_connected_adds_refuted : exists dW : mat, forall x W din dout db,
  let '(_, dW1, _) := fc_backward 1 1 Linear W x (fc_forward 1 Linear W (fun _ => 0) x) din dout dW db in
  let '(_, dW2, _) := fc_backward 1 1 Linear W x (fc_forward 1 Linear W (fun _ => 0) x) din dout (fun _ _ => 0) db in
  dW1 O O <> dW O O + dW2 O O.
Proof. exists (fun _ _ => 1). intros. cbn. lra. Qed.
Print Assumptions C41_fully_connected_adds_refuted.
Example C41_fc_case :
  let W := fun i j : nat => 2 in let x := fun i j : nat => 3 in
  let '(din, dW, db) := fc_backward 1 1 Linear W x (fc_forward 1 Linear W (fun _ => 1) x) (fun _ _ => 10) (fun _ _ => 5) (fun _ _ => 0) (fun _ => 0) in
  fc_forward 1 Linear W (fun _ => 1) x O O = 7 /\ din O O = 20 /\ dW O O = 15 /\ db O = 5.
Proof. cbn. unfold dot_add_mm, dot_mm, trans, sum0, fc_forward, dot_mm, trans, act_inplace, act_f, Rsum. lra. Qed.

(** Highway *)
Theorem C41_highway : forall rows cols s0 (H T x : R -> mat) H' T' x' dH dT dx dy,
  curve2 s0 rows cols H H' -> curve2 s0 rows cols T T' -> curve2 s0 rows cols x x' ->
  let '(dH1, dT1, dx1) := highway_backward (H s0) (T s0) (x s0) dH dT dx dy in
  D s0 (fun s => pair2 rows cols dy (highway_forward (H s) (T s) (x s)))
       (pair2 rows cols (msub dH1 dH) H' + pair2 rows cols (msub dT1 dT) T' + pair2 rows cols (msub dx1 dx) x').
Proof.
  intros rows cols s0 H T x H' T' x' dH dT dx dy cH cT cx. unfold highway_backward.
  apply (D_pair2 s0 rows cols dy (fun s => highway_forward (H s) (T s) (x s)) (fun i j => (T' i j * (H s0 i j - x s0 i j) + T s0 i j * (H' i j - x' i j)) + x' i j)).
  - intros i j Hi Hj. unfold highway_forward. apply (D_plus s0 (fun s => T s i j * (H s i j - x s i j)) (fun s => x s i j)); [|now apply cx].
    apply (D_mult s0 (fun s => T s i j) (fun s => H s i j - x s i j)); [now apply cT|]. apply (D_minus s0 (fun s => H s i j) (fun s => x s i j)); [now apply cH | now apply cx].
  - rewrite pair2_plus. unfold pair2. rewrite <- Rsum_plus. apply Rsum_ext; intros i Hi. rewrite <- Rsum_plus. apply Rsum_ext; intros j Hj. unfold msub. lra.
Qed.
Print Assumptions C41_highway.
Example C41_highway_case :
  let '(dH, dT, dx) := highway_backward (fun _ _ => 5) (fun _ _ => / 4) (fun _ _ => 1) (fun _ _ => 7) (fun _ _ => 0) (fun _ _ => 0) (fun _ _ => 8) in
  highway_forward (fun _ _ => 5) (fun _ _ => / 4) (fun _ _ => 1) O O = 2 /\ dH O O = 9 /\ dT O O = 32 /\ dx O O = 6.
Proof. cbn. unfold highway_forward. lra. Qed.

(** Merge *)
Theorem C41_merge : forall rows n1 n2 s0 (a b : R -> mat) a' b' da db dy,
  curve2 s0 rows n1 a a' -> curve2 s0 rows n2 b b' ->
  let '(da1, db1) := merge_backward n1 dy da db in
  D s0 (fun s => pair2 rows (n1 + n2) dy (merge_forward n1 (a s) (b s))) (pair2 rows n1 (msub da1 da) a' + pair2 rows n2 (msub db1 db) b').
Proof.
  intros rows n1 n2 s0 a b a' b' da db dy Ha Hb. unfold merge_backward.
  apply (D_pair2 s0 rows (n1 + n2) dy (fun s => merge_forward n1 (a s) (b s)) (merge_forward n1 a' b')).
  - intros i j Hi Hj. unfold merge_forward. destruct (Nat.ltb_spec j n1); [now apply Ha | apply Hb; [assumption | lia]].
  - unfold pair2. rewrite <- Rsum_plus. apply Rsum_ext; intros i Hi. rewrite Rsum_app. f_equal.
    + apply Rsum_ext; intros j Hj. unfold merge_forward, msub. rewrite (proj2 (Nat.ltb_lt j n1) Hj). lra.
    + apply Rsum_ext; intros j Hj. unfold merge_forward, msub. destruct (Nat.ltb_spec (n1 + j) n1); [lia|]. replace (n1 + j - n1)%nat with j by lia. lra.
Qed.
Print Assumptions C41_merge.
(** and every input value arrives at exactly one output position *)
Theorem C41_merge_places : forall n1 n2 a b i,
  (forall j, (j < n1)%nat -> merge_forward n1 a b i j = a i j) /\ (forall j, (j < n2)%nat -> merge_forward n1 a b i (n1 + j)%nat = b i j).
Proof.
  intros n1 n2 a b i. unfold merge_forward. split; intros j Hj.
  - now rewrite (proj2 (Nat.ltb_lt j n1) Hj).
  - destruct (Nat.ltb_spec (n1 + j) n1); [lia|]. f_equal. lia.
Qed.
Print Assumptions C41_merge_places.
Example C41_merge_case : merge_forward 1 (fun _ _ => 1) (fun _ j => INR j + 5) O 2%nat = 6 /\ snd (merge_backward 1 (fun _ j => INR j) (fun _ _ => 0) (fun _ _ => 0)) O 1%nat = 2.
Proof. cbn. lra. Qed.

(** Mask, with respect to the default input (the mask input gets no deltas). *)
Theorem C41_mask : forall bc rows cols s0 (x : R -> mat) x' m dx dy, curve2 s0 rows cols x x' ->
  D s0 (fun s => pair2 rows cols dy (mask_forward bc (x s) m)) (pair2 rows cols (msub (mask_backward bc m dx dy) dx) x').
Proof.
  intros bc rows cols s0 x x' m dx dy Hx. apply (D_pair2 s0 rows cols dy (fun s => mask_forward bc (x s) m) (fun i j => x' i j * mask_at bc m i j)).
  - intros i j Hi Hj. apply (D_scal_r s0 (mask_at bc m i j) (fun s => x s i j)). now apply Hx.
  - apply pair2_ext. intros i j _ _. unfold msub, mask_backward. lra.
Qed.
Print Assumptions C41_mask.
Example C41_mask_case : mask_forward true (fun _ j => INR j + 1) (fun i _ => INR i) 1%nat 1%nat = 2 /\ mask_backward true (fun i _ => INR i) (fun _ _ => 3) (fun _ _ => 4) O 1%nat = 3.
Proof. unfold mask_forward, mask_backward, mask_at. cbn. lra. Qed.

(** NoOp and Elementwise *)
Theorem C41_noop : forall rows cols s0 (x : R -> mat) x' dx dy, curve2 s0 rows cols x x' ->
  D s0 (fun s => pair2 rows cols dy (noop_forward (x s))) (pair2 rows cols (msub (noop_backward dx dy) dx) x').
Proof.
  intros rows cols s0 x x' dx dy Hx. apply (D_pair2 s0 rows cols dy (fun s => noop_forward (x s)) x'); [exact Hx|].
  apply pair2_ext. intros i j _ _. unfold msub, noop_backward. lra.
Qed.
Print Assumptions C41_noop.
Theorem C41_elementwise : forall a rows cols s0 (x : R -> mat) x' dx dy, curve2 s0 rows cols x x' ->
  (a = Rel -> forall i j, (i < rows)%nat -> (j < cols)%nat -> x s0 i j <> 0) ->
  D s0 (fun s => pair2 rows cols dy (elementwise_forward a (x s))) (pair2 rows cols (msub (elementwise_backward a (elementwise_forward a (x s0)) dx dy) dx) x').
Proof.
  intros a rows cols s0 x x' dx dy Hx HK.
  apply (D_pair2 s0 rows cols dy (fun s => elementwise_forward a (x s)) (fun i j => act_deriv a (act_f a (x s0 i j)) 1 * x' i j)).
  - intros i j Hi Hj. apply (D_act a s0 (fun s => x s i j)); [now apply Hx | intros ->; now apply HK].
  - apply pair2_ext. intros i j _ _. unfold msub, elementwise_backward, elementwise_forward. rewrite (act_deriv_linear a _ (dy i j)). lra.
Qed.
Print Assumptions C41_elementwise.
Example C41_elementwise_case : elementwise_backward Rel (elementwise_forward Rel (fun _ j => INR j - 1)) (fun _ _ => 2) (fun _ _ => 3) O 2%nat = 5
  /\ elementwise_backward Rel (elementwise_forward Rel (fun _ j => INR j - 1)) (fun _ _ => 2) (fun _ _ => 3) O O = 2.
Proof. unfold elementwise_backward, elementwise_forward, act_deriv, act_f. cbn. rewrite (gt0_pos (1 + 1 - 1)), (gt0_neg (0 - 1)) by lra. rewrite gt0_pos, gt0_neg by lra. lra. Qed.

(** SquaredDifference and SquaredError *)
Theorem C41_squared_difference : forall rows cols s0 (x1 x2 : R -> mat) x1' x2' dx1 dx2 dy,
  curve2 s0 rows cols x1 x1' -> curve2 s0 rows cols x2 x2' ->
  let '(d1, d2) := sqdiff_backward (x1 s0) (x2 s0) dx1 dx2 dy in
  D s0 (fun s => pair2 rows cols dy (sqdiff_forward (x1 s) (x2 s))) (pair2 rows cols (msub d1 dx1) x1' + pair2 rows cols (msub d2 dx2) x2').
Proof.
  intros rows cols s0 x1 x2 x1' x2' dx1 dx2 dy H1 H2. unfold sqdiff_backward.
  apply (D_pair2 s0 rows cols dy (fun s => sqdiff_forward (x1 s) (x2 s)) (fun i j => (x1' i j - x2' i j) * (x1 s0 i j - x2 s0 i j) + (x1 s0 i j - x2 s0 i j) * (x1' i j - x2' i j))).
  - intros i j Hi Hj. assert (E : D s0 (fun s => x1 s i j - x2 s i j) (x1' i j - x2' i j)) by (apply (D_minus s0 (fun s => x1 s i j) (fun s => x2 s i j)); auto).
    exact (D_mult s0 _ _ _ _ E E).
  - rewrite pair2_plus. apply Rsum2_ext. intros i j _ _. unfold msub. lra.
Qed.
Print Assumptions C41_squared_difference.
Theorem C41_squared_error : forall rows cols s0 (x : R -> mat) x' t dx dloss, curve2 s0 rows cols x x' ->
  D s0 (fun s => pair2 rows cols dloss (snd (sqerr_forward (x s) t))) (pair2 rows cols (msub (sqerr_backward (x s0) t dx dloss) dx) x')
  /\ fst (sqerr_forward (x s0) t) = x s0.
Proof.
  intros rows cols s0 x x' t dx dloss Hx. split; [|reflexivity].
  apply (D_pair2 s0 rows cols dloss (fun s => snd (sqerr_forward (x s) t)) (fun i j => / 2 * ((x' i j - 0) * (x s0 i j - t i j) + (x s0 i j - t i j) * (x' i j - 0)))).
  - intros i j Hi Hj. cbn. apply (D_scal s0 (/ 2) (fun s => (x s i j - t i j) * (x s i j - t i j))).
    assert (E : D s0 (fun s => x s i j - t i j) (x' i j - 0)) by (apply (D_minus s0 (fun s => x s i j) (fun _ => t i j)); [now apply Hx | apply D_const]). exact (D_mult s0 _ _ _ _ E E).
  - apply pair2_ext. intros i j _ _. unfold msub, sqerr_backward. lra.
Qed.
Print Assumptions C41_squared_error.
Example C41_squared_case :
  fst (sqdiff_backward (fun _ _ => 5) (fun _ _ => 2) (fun _ _ => 1) (fun _ _ => 1) (fun _ _ => 10)) O O = 61 /\
  snd (sqdiff_backward (fun _ _ => 5) (fun _ _ => 2) (fun _ _ => 1) (fun _ _ => 1) (fun _ _ => 10)) O O = -59 /\
  sqerr_backward (fun _ _ => 5) (fun _ _ => 2) (fun _ _ => 1) (fun _ _ => 10) O O = 31.
Proof. unfold sqerr_backward. cbn. lra. Qed.

(** L1Decay and L2Decay *)
Lemma D_abs s f l : D s f l -> f s <> 0 -> D s (fun x => Rabs (f x)) (sign (f s) * l).
Proof.
  intros H N. apply (D_comp s f Rabs l (sign (f s)) H). destruct (Rle_lt_dec (f s) 0) as [L|P].
  - assert (E : sign (f s) = -1) by (unfold sign; destruct (Rlt_dec 0 (f s)); [lra|]; destruct (Rlt_dec (f s) 0); [reflexivity | lra]). rewrite E. apply Rabs_derive_2. lra.
  - assert (E : sign (f s) = 1) by (unfold sign; destruct (Rlt_dec 0 (f s)); [reflexivity | lra]). rewrite E. now apply Rabs_derive_1.
Qed.
Theorem C41_l1_decay : forall rows cols s0 (x : R -> mat) x' dx dloss, curve2 s0 rows cols x x' ->
  (forall i j, (i < rows)%nat -> (j < cols)%nat -> x s0 i j <> 0) ->
  D s0 (fun s => pair1 rows dloss (l1_forward cols (x s))) (pair2 rows cols (msub (l1_backward (x s0) dx dloss) dx) x').
Proof.
  intros rows cols s0 x x' dx dloss Hx N.
  apply (D_eq _ _ (Rsum rows (fun i => dloss i * Rsum cols (fun j => sign (x s0 i j) * x' i j)))).
  - apply (D_sum s0 rows (fun i s => dloss i * l1_forward cols (x s) i)). intros i Hi. apply (D_scal s0 (dloss i) (fun s => l1_forward cols (x s) i)).
    apply (D_sum s0 cols (fun j s => Rabs (x s i j))). intros j Hj. apply (D_abs s0 (fun s => x s i j)); auto.
  - apply Rsum_ext; intros i Hi. rewrite <- Rsum_scal. apply Rsum_ext; intros j Hj. unfold msub, l1_backward. lra.
Qed.
Print Assumptions C41_l1_decay.
Theorem C41_l2_decay : forall rows cols s0 (x : R -> mat) x' dx dloss, curve2 s0 rows cols x x' ->
  D s0 (fun s => pair1 rows dloss (l2_forward cols (x s))) (pair2 rows cols (msub (l2_backward (x s0) dx dloss) dx) x').
Proof.
  intros rows cols s0 x x' dx dloss Hx.
  apply (D_eq _ _ (Rsum rows (fun i => dloss i * Rsum cols (fun j => / 2 * (x' i j * x s0 i j + x s0 i j * x' i j))))).
  - apply (D_sum s0 rows (fun i s => dloss i * l2_forward cols (x s) i)). intros i Hi. apply (D_scal s0 (dloss i) (fun s => l2_forward cols (x s) i)).
    apply (D_sum s0 cols (fun j s => / 2 * (x s i j * x s i j))). intros j Hj. apply (D_scal s0 (/ 2) (fun s => x s i j * x s i j)). apply (D_mult s0 (fun s => x s i j) (fun s => x s i j)); auto.
  - apply Rsum_ext; intros i Hi. rewrite <- Rsum_scal. apply Rsum_ext; intros j Hj. unfold msub, l2_backward. lra.
Qed.
Print Assumptions C41_l2_decay.
Example C41_decay_case : l1_backward (fun _ _ => -3) (fun _ _ => 1) (fun _ => 5) O O = -4 /\ l2_backward (fun _ _ => -3) (fun _ _ => 1) (fun _ => 5) O O = -14.
Proof. unfold l1_backward, l2_backward, sign. destruct (Rlt_dec 0 (-3)); [lra|]. destruct (Rlt_dec (-3) 0); lra. Qed.

(** Loss: the derivative of the loss itself (the layer takes no output deltas). *)
Theorem C41_loss : forall rows cols imp batch s0 (x : R -> mat) x' dx, curve2 s0 rows cols x x' ->
  D s0 (fun s => loss_forward rows cols imp batch (x s)) (pair2 rows cols (msub (loss_backward imp batch dx) dx) x').
Proof.
  intros rows cols imp batch s0 x x' dx Hx. apply (D_eq _ _ (imp / batch * Rsum rows (fun i => Rsum cols (x' i)))).
  - apply (D_scal s0 (imp / batch) (fun s => Rsum rows (fun i => Rsum cols (fun j => x s i j)))). apply (D_sum2 s0 rows cols x x'). exact Hx.
  - rewrite <- Rsum_scal. apply Rsum_ext; intros i Hi. rewrite <- Rsum_scal. apply Rsum_ext; intros j Hj. unfold msub, loss_backward. lra.
Qed.
Print Assumptions C41_loss.
Example C41_loss_case : loss_forward 2 1 3 2 (fun i _ => INR i + 1) = 9 / 2 /\ loss_backward 3 2 (fun _ _ => 1) O O = 5 / 2.
Proof. unfold loss_forward, loss_backward. cbn. lra. Qed.

(** ** C47 *)
(** Without training the layer is the identity, whatever mask an earlier training pass
    left behind, and so has derivative 1.  The backward pass still uses the old mask. *)
Theorem C47_evaluation : forall rows cols p s0 (x : R -> mat) x' mask dy, curve2 s0 rows cols x x' ->
  (forall i j, dropout_forward false p mask (x s0) i j = x s0 i j) /\
  D s0 (fun s => pair2 rows cols dy (dropout_forward false p mask (x s))) (pair2 rows cols dy x').
Proof.
  intros rows cols p s0 x x' mask dy Hx. split; [reflexivity|]. now apply (D_pair2 s0 rows cols dy (fun s => dropout_forward false p mask (x s)) x').
Qed.
Print Assumptions C47_evaluation.
(** The deltas lack the factor 1/(1-p) of the forward pass: they are the derivative
    after multiplication with it. *)
Theorem C47_scaled : forall rows cols p s0 (x : R -> mat) x' mask dx dy, curve2 s0 rows cols x x' ->
  D s0 (fun s => pair2 rows cols dy (dropout_forward true p mask (x s))) (1 / (1 - p) * pair2 rows cols (msub (dropout_backward mask dx dy) dx) x').
Proof.
  intros rows cols p s0 x x' mask dx dy Hx. apply (D_pair2 s0 rows cols dy (fun s => dropout_forward true p mask (x s)) (fun i j => 1 / (1 - p) * (x' i j * mask i j))).
  - intros i j Hi Hj. apply (D_scal s0 (1 / (1 - p)) (fun s => x s i j * mask i j)). apply (D_scal_r s0 (mask i j) (fun s => x s i j)). now apply Hx.
  - unfold pair2. rewrite <- Rsum_scal. apply Rsum_ext; intros i Hi. rewrite <- Rsum_scal. apply Rsum_ext; intros j Hj. unfold msub, dropout_backward. lra.
Qed.
Print Assumptions C47_scaled.
(** Hence they are wrong for every drop probability other than 0, whenever the true
    derivative is not zero. *)
Theorem C47_refuted : forall rows cols p s0 (x : R -> mat) x' mask dx dy, curve2 s0 rows cols x x' -> 0 < p < 1 ->
  pair2 rows cols (fun i j => dy i j * mask i j) x' <> 0 ->
  ~ D s0 (fun s => pair2 rows cols dy (dropout_forward true p mask (x s))) (pair2 rows cols (msub (dropout_backward mask dx dy) dx) x').
Proof.
  intros rows cols p s0 x x' mask dx dy Hx Hp N H. assert (E := D_unique _ _ _ _ H (C47_scaled rows cols p s0 x x' mask dx dy Hx)).
  rewrite (pair2_ext rows cols (msub (dropout_backward mask dx dy) dx) x' (fun i j => dy i j * mask i j) x') in E by (intros; unfold msub, dropout_backward; lra).
  set (P := pair2 rows cols (fun i j => dy i j * mask i j) x') in *. assert (F : (1 - p) * P = P). { rewrite E at 1. field. lra. }
  apply N. assert (G : p * P = 0) by lra. apply Rmult_integral in G. lra.
Qed.
Print Assumptions C47_refuted.
Example C47_case : curve2 0 1 1 (fun s _ _ => s) (fun _ _ => 1) /\ pair2 1 1 (fun i j => 1 * 1) (fun _ _ => 1) <> 0
  /\ dropout_forward true (/ 2) (fun _ _ => 1) (fun _ _ => 3) O O = 6 /\ dropout_backward (fun _ _ => 1) (fun _ _ => 0) (fun _ _ => 1) O O = 1.
Proof. split; [intros i j _ _; apply D_id|]. unfold pair2, dropout_backward, dropout_forward. cbn. repeat split; lra. Qed.
