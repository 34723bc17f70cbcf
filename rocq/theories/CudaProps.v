(** C60: the kernels of the GPU handler compute what the CPU handler computes, in every
    order in which their threads may run; here all but convolution and pooling. *)
From Coq Require Import Reals ZArith Arith List Bool Lia Lra.
From Verif Require Import NumBase NumpyModel NumpyProps LayersModel ConvModel ConvBase PoolModel CudaModel CudaBase.
Import ListNotations.
Open Scope R_scope.

(** ** Elementwise kernels *)
Theorem C60_elementwise : forall f x y dy lo hi,
  k_act f x = act_f f x /\ k_act_deriv f y dy = act_deriv f y dy /\ k_sign x = sign x /\ k_clip x lo hi = clip lo hi x.
Proof.
  intros f x y dy lo hi. repeat split.
  - destruct f; cbn; unfold gt0, ge0, lt0; try reflexivity.
    + rewrite Rmult_1_l. replace (-1 * x) with (- x) by lra. reflexivity.
    + destruct (Rlt_dec 0 x); lra.
    + destruct (Rlt_dec 0 x), (Rle_dec 0 x), (Rlt_dec x 0); try lra. assert (x = 0) as -> by lra. rewrite exp_0. lra.
  - destruct f; cbn; unfold gt0, ge0, lt0; try reflexivity.
    + destruct (Rlt_dec 0 y); lra.
    + destruct (Rlt_dec 0 y), (Rle_dec 0 y), (Rlt_dec y 0); try lra. assert (y = 0) as -> by lra. lra.
  - unfold k_sign, sign. destruct (Rlt_dec 0 x), (Rlt_dec x 0); lra.
Qed.
Print Assumptions C60_elementwise.
Example C60_elementwise_case : k_act El (-2) = exp (-2) - 1 /\ k_act_deriv Rel 3 5 = 5 /\ k_sign (-7) = -1 /\ k_clip 4 0 3 = 3.
Proof.
  cbn. unfold k_sign, k_clip. repeat split; repeat (match goal with |- context [Rlt_dec ?a ?b] => destruct (Rlt_dec a b) end; try lra).
  unfold Rmax, Rmin. repeat (match goal with |- context [Rle_dec ?a ?b] => destruct (Rle_dec a b) end; try lra).
Qed.

Lemma to_int_IZR z : (0 <= z)%Z -> to_int (IZR z) = z.
Proof.
  intros H. unfold to_int. destruct (Rle_dec 0 (IZR z)) as [_|N]; [|exfalso; apply N; now apply IZR_le].
  unfold Int_part. rewrite <- (tech_up (IZR z) (z + 1)); [lia | apply IZR_lt; lia | rewrite plus_IZR; lra].
Qed.
Lemma to_int_bounds x z : (0 <= z)%Z -> IZR z <= x < IZR z + 1 -> to_int x = z.
Proof.
  intros H [L U]. assert (0 <= IZR z) by now apply IZR_le. unfold to_int. destruct (Rle_dec 0 x) as [_|N]; [|lra].
  unfold Int_part. rewrite <- (tech_up x (z + 1)); [lia | rewrite plus_IZR; lra | rewrite plus_IZR; lra].
Qed.
Lemma quot_flat i L q : (0 <= i)%Z -> (0 <= q < L)%Z -> Z.quot (i * L + q) L = i.
Proof. intros Hi Hq. rewrite Z.quot_div_nonneg by nia. symmetry. apply (Z.div_unique _ L i q); lia. Qed.
Lemma rem_flat i L q : (0 <= i)%Z -> (0 <= q < L)%Z -> Z.rem (i * L + q) L = q.
Proof. intros Hi Hq. rewrite Z.rem_mod_nonneg by nia. symmetry. apply (Z.mod_unique _ L i q); lia. Qed.

(** broadcast_t: an array of shape (outer, 1, stride) repeated along the middle axis *)
Theorem C60_broadcast : forall a broadcast_dim stride o d s, (0 <= o)%Z -> (0 <= d < broadcast_dim)%Z -> (0 <= s < stride)%Z ->
  k_broadcast a broadcast_dim stride ((o * broadcast_dim + d) * stride + s) = a (o * stride + s)%Z.
Proof.
  intros a bd st o d s Ho Hd Hs. unfold k_broadcast. rewrite rem_flat by nia. replace ((o * bd + d) * st + s)%Z with (o * (bd * st) + (d * st + s))%Z by ring.
  rewrite quot_flat by nia. f_equal. ring.
Qed.
Print Assumptions C60_broadcast.
Example C60_broadcast_case : k_broadcast IZR 4 3 ((1 * 4 + 2) * 3 + 1) = 4.
Proof. rewrite C60_broadcast by lia. reflexivity. Qed.

(** ** Labels *)
Theorem C60_binarize_partial : forall v ncols row col z, (0 <= row)%Z -> (0 <= col < ncols)%Z -> (0 <= z < ncols)%Z -> v row = IZR z ->
  np_binarize v ncols row col = Some (k_binarize v ncols (row * ncols + col)).
Proof.
  intros v n r c z Hr Hc Hz E. unfold np_binarize, k_binarize, np_index. rewrite E, quot_flat, rem_flat, E, to_int_IZR by lia.
  destruct (Z.leb_spec 0 z), (Z.ltb_spec z n); try lia. cbn [andb]. f_equal. destruct (Z.eqb_spec c z) as [N|N], (Req_EM_T (IZR z) (IZR c)) as [Q|Q]; try reflexivity.
  - congruence.
  - apply eq_IZR in Q. congruence.
Qed.
Print Assumptions C60_binarize_partial.
(** A label that is no integer, or negative: the CPU handler marks a class, the GPU handler
    none. *)
Theorem C60_binarize_refuted : forall ncols, (2 <= ncols)%Z ->
  (np_binarize (fun _ => 3 / 2) ncols 0 1 = Some 1 /\ forall col, (0 <= col < ncols)%Z -> k_binarize (fun _ => 3 / 2) ncols (0 * ncols + col) = 0) /\
  (np_binarize (fun _ => -1) ncols 0 (ncols - 1) = Some 1 /\ forall col, (0 <= col < ncols)%Z -> k_binarize (fun _ => -1) ncols (0 * ncols + col) = 0).
Proof.
  intros n Hn. split; split.
  - unfold np_binarize, np_index. rewrite (to_int_bounds (3 / 2) 1) by (try lia; lra). destruct (Z.ltb_spec 1 n); [|lia]. reflexivity.
  - intros c Hc. unfold k_binarize. rewrite rem_flat by lia. destruct (Req_EM_T (3 / 2) (IZR c)) as [E|]; [|reflexivity]. exfalso.
    assert (Q : IZR (2 * c) = IZR 3) by (rewrite mult_IZR; lra). apply eq_IZR in Q. lia.
  - unfold np_binarize, np_index. replace (to_int (-1)) with (-1)%Z.
    + destruct (Z.leb_spec 0 (-1)); [lia|]. cbn [andb]. destruct (Z.leb_spec (- n) (-1)); [|lia]. destruct (Z.ltb_spec (-1) 0); [|lia]. cbn [andb].
      destruct (Z.eqb_spec (n - 1) (-1 + n)); [reflexivity | lia].
    + unfold to_int. destruct (Rle_dec 0 (-1)); [lra|]. replace (- -1) with (IZR 1) by lra. unfold Int_part. rewrite <- (tech_up (IZR 1) 2); [reflexivity | lra | lra].
  - intros c Hc. unfold k_binarize. rewrite rem_flat by lia. destruct (Req_EM_T (-1) (IZR c)) as [E|]; [|reflexivity]. apply eq_IZR in E. lia.
Qed.
Print Assumptions C60_binarize_refuted.
Example C60_binarize_case : np_binarize (fun _ => 2) 5 3 2 = Some 1 /\ k_binarize (fun _ => 2) 5 17 = 1.
Proof.
  assert (E := C60_binarize_partial (fun _ => 2) 5 3 2 2 ltac:(lia) ltac:(lia) ltac:(lia) eq_refl). change (3 * 5 + 2)%Z with 17%Z in E. rewrite E.
  unfold k_binarize. replace (Z.rem 17 5) with 2%Z by reflexivity. destruct (Req_EM_T 2 2); [split; reflexivity | lra].
Qed.

(** index_m_by_v: for every label in range, integer or not *)
Theorem C60_index : forall m v ncols row, 0 <= v row < IZR ncols -> np_index_m m v ncols row = Some (k_index m v ncols row).
Proof.
  intros m v n r [L U]. unfold np_index_m, k_index, np_index. assert (B := base_Int_part (v r)). unfold to_int. destruct (Rle_dec 0 (v r)); [|lra].
  assert (0 <= Int_part (v r) < n)%Z.
  { split.
    - apply Z.lt_succ_r, lt_IZR. unfold Z.succ. rewrite plus_IZR. lra.
    - apply lt_IZR. lra. }
  destruct (Z.leb_spec 0 (Int_part (v r))), (Z.ltb_spec (Int_part (v r)) n); try lia. reflexivity.
Qed.
Print Assumptions C60_index.
Example C60_index_case : np_index_m IZR (fun _ => 2) 5 3 = Some 17.
Proof. rewrite C60_index by lra. unfold k_index. change 2 with (IZR 2). rewrite to_int_IZR by lia. reflexivity. Qed.

(** ** modulo_tt *)
Theorem C60_modulo_partial : forall a b, (0 <= a)%Z -> (0 < b)%Z -> k_modulo (IZR a) (IZR b) = fmod (IZR a) (IZR b).
Proof.
  intros a b Ha Hb. unfold k_modulo, fmod. rewrite (to_int_bounds (IZR a + / 2) a), (to_int_bounds (IZR b + / 2) b) by (try lia; lra).
  assert (B : 0 < IZR b) by now apply IZR_lt. assert (M := Z.mod_pos_bound a b Hb). assert (E := Z.div_mod a b ltac:(lia)).
  rewrite (to_int_bounds (IZR a / IZR b) (a / b)).
  - rewrite Z.rem_mod_nonneg by lia. rewrite <- mult_IZR, <- minus_IZR. f_equal. lia.
  - apply Z.div_pos; lia.
  - assert (Q : IZR a = IZR b * IZR (a / b) + IZR (a mod b)) by (rewrite <- mult_IZR, <- plus_IZR; now f_equal).
    assert (0 <= IZR (a mod b)) by (apply IZR_le; lia). assert (IZR (a mod b) < IZR b) by (apply IZR_lt; lia).
    replace (IZR a / IZR b) with (IZR (a / b) + IZR (a mod b) / IZR b) by (rewrite Q; field; lra).
    assert (0 <= IZR (a mod b) / IZR b) by (apply Rmult_le_pos; [assumption | apply Rlt_le, Rinv_0_lt_compat; assumption]).
    assert (IZR (a mod b) / IZR b < 1) by (apply (Rmult_lt_reg_r (IZR b)); [assumption|]; unfold Rdiv; rewrite Rmult_assoc, Rinv_l; lra). lra.
Qed.
Print Assumptions C60_modulo_partial.
(** With a period of 2.5 a Clockwork layer's block runs at step 5 on the CPU, not on the GPU. *)
Theorem C60_modulo_refuted : fmod 5 (5 / 2) = 0 /\ k_modulo 5 (5 / 2) = 2.
Proof.
  unfold fmod, k_modulo. split.
  - rewrite (to_int_bounds (5 / (5 / 2)) 2); [lra | lia | lra].
  - rewrite (to_int_bounds (5 + / 2) 5), (to_int_bounds (5 / 2 + / 2) 3) by (try lia; lra). reflexivity.
Qed.
Print Assumptions C60_modulo_refuted.
Example C60_modulo_case : k_modulo 7 4 = 3 /\ fmod 7 4 = 3.
Proof. rewrite <- (C60_modulo_partial 7 4) by lia. unfold k_modulo. rewrite (to_int_bounds (7 + / 2) 7), (to_int_bounds (4 + / 2) 4) by (try lia; lra). split; reflexivity. Qed.

(** ** merge_tt and split_add_tt *)
(** rows of a flat matrix *)
Definition rows_of (cols : nat) (a : Z -> R) : mat := fun i j => a (Z.of_nat (i * cols + j)).
Lemma gridsize_total n : (0 <= n)%Z -> let '(b, t) := get_gridsize n in (0 <= b)%Z /\ (0 <= t)%Z /\ ((n <= 98304)%Z -> (n <= b * t)%Z) /\ ((98304 <= n)%Z -> (b * t = 98304)%Z).
Proof.
  intros H. unfold get_gridsize. cbv zeta. destruct (Z.ltb_spec n 32); [lia|]. destruct (Z.ltb_spec n (384 * 32)).
  { assert (E := Z.div_mod (n + 32 - 1) 32 ltac:(lia)). assert (M := Z.mod_pos_bound (n + 32 - 1) 32 ltac:(lia)). lia. }
  destruct (Z.ltb_spec n (384 * 256)); [|lia].
  assert (E := Z.div_mod (n + 32 - 1) 32 ltac:(lia)). assert (M := Z.mod_pos_bound (n + 32 - 1) 32 ltac:(lia)). set (g := ((n + 32 - 1) / 32)%Z) in *.
  assert (E1 := Z.div_mod (g + 384 - 1) 384 ltac:(lia)). assert (M1 := Z.mod_pos_bound (g + 384 - 1) 384 ltac:(lia)). lia.
Qed.
Lemma per_row_threads n row : (0 <= n)%Z -> exists N, per_row n row = map row (zrange N) /\ ((n <= 98304)%Z -> (n <= N)%Z) /\ ((98304 <= n)%Z -> (N = 98304)%Z).
Proof.
  intros H. assert (G := gridsize_total n H). unfold per_row. destruct (get_gridsize n) as [b t]. destruct G as (Hb & Ht & L & U).
  exists (b * t)%Z. split; [now apply flat_zrange | tauto].
Qed.
Lemma flat_inj (C i j i' j' : Z) : (0 <= j < C)%Z -> (0 <= j' < C)%Z -> (i * C + j = i' * C + j')%Z -> i = i' /\ j = j'.
Proof. intros H H' E. assert (i = i') by nia. subst. lia. Qed.

Section Merge.
Variables (n ca cb : nat).
Notation W := (Z.of_nat ca + Z.of_nat cb)%Z.
Notation merge a b := (per_row (Z.of_nat n) (merge_row a b (Z.of_nat n) (Z.of_nat ca) (Z.of_nat cb))).
Notation split x := (per_row (Z.of_nat n) (split_row x (Z.of_nat n) (Z.of_nat ca) (Z.of_nat cb))).
Lemma in_merge_row a b row w : (0 <= row)%Z -> In w (merge_row a b (Z.of_nat n) (Z.of_nat ca) (Z.of_nat cb) row) ->
  (row < Z.of_nat n)%Z /\ exists i, (0 <= i < W)%Z /\ cell w = (0%nat, (row * W + i)%Z).
Proof.
  intros Hr. unfold merge_row. destruct (Z.leb_spec (Z.of_nat n) row); [intros []|]. intros Hw. apply in_map_iff in Hw as (i & <- & Hi). apply in_zrange in Hi.
  split; [lia|]. exists i. split; [exact Hi|]. now destruct (Z.ltb_spec i (Z.of_nat ca)).
Qed.
Lemma in_split_row x row w : (0 <= row)%Z -> In w (split_row x (Z.of_nat n) (Z.of_nat ca) (Z.of_nat cb) row) ->
  (row < Z.of_nat n)%Z /\ ((exists i, (0 <= i < Z.of_nat ca)%Z /\ cell w = (0%nat, (row * Z.of_nat ca + i)%Z)) \/ (exists i, (0 <= i < Z.of_nat cb)%Z /\ cell w = (1%nat, (row * Z.of_nat cb + i)%Z))).
Proof.
  intros Hr. unfold split_row. destruct (Z.leb_spec (Z.of_nat n) row); [intros []|]. intros Hw. apply in_map_iff in Hw as (i & <- & Hi). apply in_zrange in Hi.
  split; [lia|]. destruct (Z.ltb_spec i (Z.of_nat ca)); [left; exists i; split; [lia | reflexivity] | right; exists (i - Z.of_nat ca)%Z; split; [lia | cbn; f_equal; lia]].
Qed.
(** No two threads write the same cell, and for at most 98304 rows the result is that of
    the CPU handler. *)
Theorem C60_merge_partial : forall a b l m, (Z.of_nat n <= 98304)%Z -> interleaving (merge a b) l ->
  race_free (merge a b) /\
  forall i j, (i < n)%nat -> (j < ca + cb)%nat -> exec l m 0%nat (Z.of_nat (i * (ca + cb) + j)) = merge_forward ca (rows_of ca a) (rows_of cb b) i j.
Proof.
  intros a b l m Hn I. destruct (per_row_threads (Z.of_nat n) (merge_row a b (Z.of_nat n) (Z.of_nat ca) (Z.of_nat cb)) ltac:(lia)) as (N & E & L & _). rewrite E in *. specialize (L ltac:(lia)). split.
  - apply threads_race_free. intros k k' w w' Hk Hk' D Hw Hw' C. apply in_merge_row in Hw as (_ & i & Hi & Ei); [|lia]. apply in_merge_row in Hw' as (_ & i' & Hi' & Ei'); [|lia].
    rewrite Ei, Ei' in C. injection C as C. apply D. now apply (flat_inj W k i k' i').
  - intros i j Hi Hj. rewrite (threads_owner N _ l m 0%nat _ (Z.of_nat i) I); [|lia|].
    + unfold merge_row. destruct (Z.leb_spec (Z.of_nat n) (Z.of_nat i)); [lia|].
      erewrite (exec_one _ _ m _ _ (Z.of_nat j)); [|apply in_zrange; lia | apply NoDup_zrange | |].
      * rewrite perform_same by (destruct (Z.ltb_spec (Z.of_nat j) (Z.of_nat ca)); cbn; f_equal; lia). unfold merge_forward, rows_of.
        destruct (Z.ltb_spec (Z.of_nat j) (Z.of_nat ca)), (Nat.ltb_spec j ca); try lia; f_equal; lia.
      * destruct (Z.ltb_spec (Z.of_nat j) (Z.of_nat ca)); cbn; f_equal; lia.
      * intros k Hk C. apply in_zrange in Hk. assert (Q : (Z.of_nat i * W + k = Z.of_nat i * W + Z.of_nat j)%Z); [|lia].
        destruct (Z.ltb_spec k (Z.of_nat ca)); cbn in C; injection C as C; lia.
    + intros k w Hk D Hw C. apply in_merge_row in Hw as (_ & q & Hq & Eq); [|lia]. rewrite Eq in C. injection C as C. apply D.
      apply (flat_inj W k q (Z.of_nat i) (Z.of_nat j)); lia.
Qed.
(** With more rows than that no thread is left for the last ones: they keep their old
    contents in every execution. *)
Theorem C60_merge_refuted : forall a b l m i j, interleaving (merge a b) l -> (98304 <= Z.of_nat i)%Z -> (i < n)%nat -> (j < ca + cb)%nat ->
  exec l m 0%nat (Z.of_nat (i * (ca + cb) + j)) = m 0%nat (Z.of_nat (i * (ca + cb) + j)).
Proof.
  intros a b l m i j I Hr Hi Hj. destruct (per_row_threads (Z.of_nat n) (merge_row a b (Z.of_nat n) (Z.of_nat ca) (Z.of_nat cb)) ltac:(lia)) as (N & E & _ & U). rewrite E in *. specialize (U ltac:(lia)).
  apply (threads_untouched N _ l m _ _ I). intros k w Hk Hw C. apply in_merge_row in Hw as (_ & q & Hq & Eq); [|lia]. rewrite Eq in C. injection C as C.
  assert (X := flat_inj W k q (Z.of_nat i) (Z.of_nat j) ltac:(lia) ltac:(lia) ltac:(lia)). lia.
Qed.
Theorem C60_split_partial : forall x l m, (Z.of_nat n <= 98304)%Z -> interleaving (split x) l ->
  let '(da, db) := merge_backward ca (rows_of (ca + cb) x) (rows_of ca (m 0%nat)) (rows_of cb (m 1%nat)) in
  race_free (split x) /\
  (forall i j, (i < n)%nat -> (j < ca)%nat -> exec l m 0%nat (Z.of_nat (i * ca + j)) = da i j) /\
  (forall i j, (i < n)%nat -> (j < cb)%nat -> exec l m 1%nat (Z.of_nat (i * cb + j)) = db i j).
Proof.
  intros x l m Hn I. destruct (per_row_threads (Z.of_nat n) (split_row x (Z.of_nat n) (Z.of_nat ca) (Z.of_nat cb)) ltac:(lia)) as (N & E & L & _). rewrite E in *. specialize (L ltac:(lia)).
  unfold merge_backward. split; [|split].
  - apply threads_race_free. intros k k' w w' Hk Hk' D Hw Hw' C. apply in_split_row in Hw as (_ & Hw); [|lia]. apply in_split_row in Hw' as (_ & Hw'); [|lia].
    destruct Hw as [(i & Hi & Ei)|(i & Hi & Ei)], Hw' as [(i' & Hi' & Ei')|(i' & Hi' & Ei')]; rewrite Ei, Ei' in C; injection C as C; try discriminate; apply D;
      [apply (flat_inj (Z.of_nat ca) k i k' i') | apply (flat_inj (Z.of_nat cb) k i k' i')]; lia.
  - intros i j Hi Hj. rewrite (threads_owner N _ l m 0%nat _ (Z.of_nat i) I); [|lia|].
    + unfold split_row. destruct (Z.leb_spec (Z.of_nat n) (Z.of_nat i)); [lia|].
      erewrite (exec_one _ _ m _ _ (Z.of_nat j)); [|apply in_zrange; lia | apply NoDup_zrange | |].
      * rewrite perform_same by (destruct (Z.ltb_spec (Z.of_nat j) (Z.of_nat ca)); [cbn; f_equal; lia | lia]). unfold rows_of.
        destruct (Z.ltb_spec (Z.of_nat j) (Z.of_nat ca)); [|lia]. f_equal. f_equal. lia.
      * destruct (Z.ltb_spec (Z.of_nat j) (Z.of_nat ca)); [cbn; f_equal; lia | lia].
      * intros k Hk C. apply in_zrange in Hk. destruct (Z.ltb_spec k (Z.of_nat ca)); cbn in C; injection C as C; lia.
    + intros k w Hk D Hw C. apply in_split_row in Hw as (_ & Hw); [|lia]. destruct Hw as [(q & Hq & Eq)|(q & Hq & Eq)]; rewrite Eq in C; injection C as C; try discriminate.
      apply D. apply (flat_inj (Z.of_nat ca) k q (Z.of_nat i) (Z.of_nat j)); lia.
  - intros i j Hi Hj. rewrite (threads_owner N _ l m 1%nat _ (Z.of_nat i) I); [|lia|].
    + unfold split_row. destruct (Z.leb_spec (Z.of_nat n) (Z.of_nat i)); [lia|].
      erewrite (exec_one _ _ m _ _ (Z.of_nat (ca + j))); [|apply in_zrange; lia | apply NoDup_zrange | |].
      * rewrite perform_same by (destruct (Z.ltb_spec (Z.of_nat (ca + j)) (Z.of_nat ca)); [lia | cbn; f_equal; lia]). unfold rows_of.
        destruct (Z.ltb_spec (Z.of_nat (ca + j)) (Z.of_nat ca)); [lia|]. f_equal. f_equal. lia.
      * destruct (Z.ltb_spec (Z.of_nat (ca + j)) (Z.of_nat ca)); [lia | cbn; f_equal; lia].
      * intros k Hk C. apply in_zrange in Hk. destruct (Z.ltb_spec k (Z.of_nat ca)); cbn in C; injection C as C; lia.
    + intros k w Hk D Hw C. apply in_split_row in Hw as (_ & Hw); [|lia]. destruct Hw as [(q & Hq & Eq)|(q & Hq & Eq)]; rewrite Eq in C; injection C as C; try discriminate.
      apply D. apply (flat_inj (Z.of_nat cb) k q (Z.of_nat i) (Z.of_nat j)); lia.
Qed.
Theorem C60_split_refuted : forall x l m i j, interleaving (split x) l -> (98304 <= Z.of_nat i)%Z -> (i < n)%nat -> (j < ca)%nat ->
  exec l m 0%nat (Z.of_nat (i * ca + j)) = m 0%nat (Z.of_nat (i * ca + j)).
Proof.
  intros x l m i j I Hr Hi Hj. destruct (per_row_threads (Z.of_nat n) (split_row x (Z.of_nat n) (Z.of_nat ca) (Z.of_nat cb)) ltac:(lia)) as (N & E & _ & U). rewrite E in *. specialize (U ltac:(lia)).
  apply (threads_untouched N _ l m _ _ I). intros k w Hk Hw C. apply in_split_row in Hw as (_ & Hw); [|lia]. destruct Hw as [(q & Hq & Eq)|(q & Hq & Eq)]; rewrite Eq in C; injection C as C; try discriminate.
  assert (X := flat_inj (Z.of_nat ca) k q (Z.of_nat i) (Z.of_nat j) ltac:(lia) ltac:(lia) ltac:(lia)). lia.
Qed.
End Merge.
Print Assumptions C60_merge_partial.
Print Assumptions C60_merge_refuted.
Print Assumptions C60_split_partial.
Print Assumptions C60_split_refuted.
(** An execution, and a wrong result: 98305 rows of ones and zeros merged into an array of
    fives. *)
Example C60_merge_case : exists l, interleaving (per_row (Z.of_nat 40) (merge_row IZR (fun _ => -1) (Z.of_nat 40) (Z.of_nat 2) (Z.of_nat 3))) l /\
  exec l (fun _ _ => 0) 0%nat (Z.of_nat (33 * (2 + 3) + 1)) = 67.
Proof.
  destruct (interleaving_exists (per_row (Z.of_nat 40) (merge_row IZR (fun _ => -1) (Z.of_nat 40) (Z.of_nat 2) (Z.of_nat 3)))) as (l & I). exists l. split; [exact I|].
  destruct (C60_merge_partial 40 2 3 IZR (fun _ => -1) l (fun _ _ => 0) ltac:(lia) I) as [_ H]. rewrite (H 33%nat 1%nat) by lia. reflexivity.
Qed.
Example C60_merge_lost : let n := Z.to_nat 98305 in let i := Z.to_nat 98304 in
  exists l, interleaving (per_row (Z.of_nat n) (merge_row (fun _ => 1) (fun _ => 0) (Z.of_nat n) (Z.of_nat 1) (Z.of_nat 1))) l /\
  exec l (fun _ _ => 5) 0%nat (Z.of_nat (i * (1 + 1) + 0)) = 5 /\ merge_forward 1 (rows_of 1 (fun _ => 1)) (rows_of 1 (fun _ => 0)) i 0%nat = 1.
Proof.
  intros n i. destruct (interleaving_exists (per_row (Z.of_nat n) (merge_row (fun _ => 1) (fun _ => 0) (Z.of_nat n) (Z.of_nat 1) (Z.of_nat 1)))) as (l & I). exists l. split; [exact I|]. split; [|reflexivity].
  apply (C60_merge_refuted n 1 1 (fun _ => 1) (fun _ => 0) l (fun _ _ => 5) i 0 I); unfold n, i; lia.
Qed.
Example C60_split_case : exists l, interleaving (per_row (Z.of_nat 40) (split_row IZR (Z.of_nat 40) (Z.of_nat 2) (Z.of_nat 3))) l /\
  exec l (fun _ _ => 100) 0%nat (Z.of_nat (33 * 2 + 1)) = 266 /\ exec l (fun _ _ => 100) 1%nat (Z.of_nat (33 * 3 + 1)) = 268.
Proof.
  destruct (interleaving_exists (per_row (Z.of_nat 40) (split_row IZR (Z.of_nat 40) (Z.of_nat 2) (Z.of_nat 3)))) as (l & I). exists l. split; [exact I|].
  assert (H := C60_split_partial 40 2 3 IZR l (fun _ _ => 100) ltac:(lia) I). cbv zeta beta iota delta [merge_backward] in H. destruct H as (_ & A & B).
  rewrite (A 33%nat 1%nat), (B 33%nat 1%nat) by lia. unfold rows_of. cbn. lra.
Qed.

(** ** softmax_m *)
Section SoftmaxKernel.
Variables (FLT_MAX : R) (n : nat) (block : Z).
Notation width := (Z.of_nat (S n)).
Notation own_ := (own width).
Notation row m := (fun k : nat => m 0%nat (block * width + Z.of_nat k)%Z).
Lemma in_own t i : In i (own_ t) <-> ((0 <= i < width)%Z /\ (i mod 32 = t)%Z).
Proof. unfold own. rewrite filter_In, in_zrange, Z.eqb_eq. tauto. Qed.
Lemma fold_sum (f : Z -> R) L c : fold_left (fun s i => s + f i) L c = c + lsum (map f L).
Proof. unfold lsum. revert c. induction L as [|x L IH]; intros c; cbn; [lra|]. rewrite IH. lra. Qed.
Lemma lsum_filter (f : Z -> R) p L : lsum (map f (filter p L)) = lsum (map (fun i => if p i then f i else 0) L).
Proof. unfold lsum. induction L as [|x L IH]; cbn; [reflexivity|]. destruct (p x); cbn; rewrite IH; lra. Qed.
(** every element belongs to exactly one thread *)
Lemma own_sum (f : Z -> R) : lsum (map (fun t => lsum (map f (own_ t))) (zrange 32)) = Rsum (S n) (fun k => f (Z.of_nat k)).
Proof.
  rewrite lsum_zrange by lia. rewrite (Rsum_ext _ _ (fun t => Rsum (S n) (fun k => if (Z.of_nat k mod 32 =? Z.of_nat t)%Z then f (Z.of_nat k) else 0))).
  - rewrite Rsum_swap. apply Rsum_ext; intros k _. assert (M := Z.mod_pos_bound (Z.of_nat k) 32 ltac:(lia)).
    rewrite (Rsum_single _ (Z.to_nat (Z.of_nat k mod 32))); [rewrite Z2Nat.id, Z.eqb_refl by lia; reflexivity | lia |].
    intros t _ N. destruct (Z.eqb_spec (Z.of_nat k mod 32) (Z.of_nat t)); [lia | reflexivity].
  - intros t _. unfold own. rewrite lsum_filter, lsum_zrange by lia. now rewrite Nat2Z.id.
Qed.
Lemma fold_max (f : Z -> R) L c : let M := fold_left (fun s i => if Rlt_dec s (f i) then f i else s) L c in
  c <= M /\ (forall i, In i L -> f i <= M) /\ (M = c \/ exists i, In i L /\ M = f i).
Proof.
  cbv zeta. revert c. induction L as [|x L IH]; intros c; cbn [fold_left].
  - repeat split; [lra | intros i [] | now left].
  - destruct (IH (if Rlt_dec c (f x) then f x else c)) as (A & B & C). destruct (Rlt_dec c (f x)) as [D|D].
    + repeat split; [lra | | right; destruct C as [->|(i & Hi & ->)]; [exists x; split; [now left | reflexivity] | exists i; split; [now right | reflexivity]]].
      intros i [->|Hi]; [exact A | now apply B].
    + repeat split; [lra | | destruct C as [->|(i & Hi & ->)]; [now left | right; exists i; split; [now right | reflexivity]]].
      intros i [->|Hi]; [lra | now apply B].
Qed.
Lemma one_thread w l m a i : interleaving [[w]] l -> exec l m a i = perform m w a i.
Proof. intros I. rewrite (owner [[w]] l m a i 0 [w] I eq_refl); [reflexivity|]. intros [|k'] t' w' H N; [congruence|]. destruct k'; discriminate. Qed.
Lemma part_other T l m a i : interleaving (map T (zrange 32)) l -> (forall t w, In w (T t) -> fst (cell w) <> a) -> exec l m a i = m a i.
Proof. intros I H. apply (threads_untouched 32 T l m a i I). intros k w _ Hw E. apply (H k w Hw). now rewrite E. Qed.
Lemma perform_other m w a i : fst (cell w) <> a -> perform m w a i = m a i.
Proof. intros H. unfold perform. rewrite cell_other; [reflexivity|]. intros E. apply H. now rewrite E. Qed.

(** the parts, one by one *)
Lemma part1 l m : interleaving (softmax_1 FLT_MAX width block m) l ->
  (forall a i, a <> 3%nat -> exec l m a i = m a i) /\
  (forall t, (0 <= t < 32)%Z -> exec l m 3%nat t = fold_left (fun s i => if Rlt_dec s (m 0%nat (block * width + i)%Z) then m 0%nat (block * width + i)%Z else s) (own_ t) (- FLT_MAX)).
Proof.
  intros I. split.
  - intros a i N. apply (part_other _ l m a i I). intros t w [<-|[]]. cbn. congruence.
  - intros t Ht. unfold softmax_1 in I. rewrite (threads_owner 32 _ l m 3%nat t t I Ht).
    + unfold exec. cbn [fold_left]. now rewrite perform_same.
    + intros k' w _ N [<-|[]] E. cbn in E. congruence.
Qed.
Lemma part2 l m : interleaving (softmax_2 FLT_MAX block m) l ->
  (forall a i, a <> 1%nat -> exec l m a i = m a i) /\
  exec l m 1%nat block = fold_left (fun s i => if Rlt_dec s (m 3%nat i) then m 3%nat i else s) (zrange 32) (- FLT_MAX).
Proof.
  intros I. split; [intros a i N|]; rewrite (one_thread _ _ _ _ _ I); [apply perform_other; cbn; congruence | now rewrite perform_same].
Qed.
Lemma part3 l m : interleaving (softmax_3 width block m) l -> let x := fun i => exp (m 0%nat (block * width + i)%Z - m 1%nat block) in
  (forall a i, a <> 2%nat -> a <> 3%nat -> exec l m a i = m a i) /\
  (forall i, (0 <= i < width)%Z -> exec l m 2%nat (block * width + i)%Z = x i) /\
  (forall i, (i < block * width \/ (block + 1) * width <= i)%Z -> exec l m 2%nat i = m 2%nat i) /\
  (forall t, (0 <= t < 32)%Z -> exec l m 3%nat t = lsum (map x (own_ t))).
Proof.
  intros I x. unfold softmax_3 in I. cbv zeta in I. fold x in I.
  assert (C : forall t w, In w (map (fun i => Put 2 (block * width + i) (x i)) (own_ t) ++ [Put 3 t (fold_left (fun s i => s + x i) (own_ t) 0)]) ->
    (exists i, In i (own_ t) /\ cell w = (2%nat, (block * width + i)%Z)) \/ cell w = (3%nat, t)).
  { intros t w Hw. apply in_app_iff in Hw as [Hw|[<-|[]]]; [|now right]. apply in_map_iff in Hw as (i & <- & Hi). left. now exists i. }
  split; [|split; [|split]].
  - intros a i N2 N3. apply (part_other _ l m a i I). intros t w Hw. destruct (C t w Hw) as [(j & _ & ->)| ->]; cbn; congruence.
  - intros i Hi. assert (M := Z.mod_pos_bound i 32 ltac:(lia)). rewrite (threads_owner 32 _ l m 2%nat _ (i mod 32)%Z I M).
    + unfold exec. rewrite fold_left_app. cbn [fold_left]. rewrite perform_other by (cbn; congruence).
      change (exec (map (fun i => Put 2 (block * width + i) (x i)) (own_ (i mod 32)%Z)) m 2%nat (block * width + i)%Z = x i).
      rewrite (exec_one _ _ m _ _ i); [now rewrite perform_same | now apply in_own | apply NoDup_filter, NoDup_zrange | reflexivity |].
      intros k _ E. cbn in E. injection E as E. lia.
    + intros k w _ N Hw E. destruct (C k w Hw) as [(j & Hj & Ew)|Ew]; rewrite Ew in E; [|discriminate]. injection E as E. apply in_own in Hj. replace j with i in Hj by lia. lia.
  - intros i Hi. apply (threads_untouched 32 _ l m _ _ I). intros k w _ Hw E. destruct (C k w Hw) as [(j & Hj & Ew)|Ew]; rewrite Ew in E; [|discriminate]. injection E as E. apply in_own in Hj. lia.
  - intros t Ht. rewrite (threads_owner 32 _ l m 3%nat t t I Ht).
    + unfold exec. rewrite fold_left_app. cbn [fold_left]. rewrite perform_same by reflexivity. rewrite fold_sum, Rplus_0_l. reflexivity.
    + intros k w _ N Hw E. destruct (C k w Hw) as [(j & _ & Ew)|Ew]; rewrite Ew in E; congruence.
Qed.
Lemma part4 l m : interleaving (softmax_4 block m) l ->
  (forall a i, a <> 1%nat -> exec l m a i = m a i) /\ exec l m 1%nat block = lsum (map (m 3%nat) (zrange 32)).
Proof.
  intros I. split; [intros a i N|]; rewrite (one_thread _ _ _ _ _ I); [apply perform_other; cbn; congruence|].
  rewrite perform_same by reflexivity. rewrite (fold_sum (m 3%nat)), Rplus_0_l. reflexivity.
Qed.
Lemma part5 l m : interleaving (softmax_5 width block m) l ->
  (forall a i, a <> 2%nat -> exec l m a i = m a i) /\
  (forall i, (0 <= i < width)%Z -> exec l m 2%nat (block * width + i)%Z = m 2%nat (block * width + i)%Z / m 1%nat block) /\
  (forall i, (i < block * width \/ (block + 1) * width <= i)%Z -> exec l m 2%nat i = m 2%nat i).
Proof.
  intros I. unfold softmax_5 in I. split; [|split].
  - intros a i N. apply (part_other _ l m a i I). intros t w Hw. apply in_map_iff in Hw as (j & <- & _). cbn. congruence.
  - intros i Hi. assert (M := Z.mod_pos_bound i 32 ltac:(lia)). rewrite (threads_owner 32 _ l m 2%nat _ (i mod 32)%Z I M).
    + rewrite (exec_one _ _ m _ _ i); [now rewrite perform_same | now apply in_own | apply NoDup_filter, NoDup_zrange | reflexivity |].
      intros k _ E. cbn in E. injection E as E. lia.
    + intros k w _ N Hw E. apply in_map_iff in Hw as (j & <- & Hj). cbn in E. injection E as E. apply in_own in Hj. replace j with i in Hj by lia. lia.
  - intros i Hi. apply (threads_untouched 32 _ l m _ _ I). intros k w _ Hw E. apply in_map_iff in Hw as (j & <- & Hj). cbn in E. injection E as E. apply in_own in Hj. lia.
Qed.
(** No part has a race, and the block leaves the softmax of its row, in every order in which
    the 32 threads may run between the barriers; other rows and the input are not touched. *)
Theorem C60_softmax : forall m m', softmax_block FLT_MAX width block m m' ->
  (forall j, (j <= n)%nat -> m' 2%nat (block * width + Z.of_nat j)%Z = softmax n (row m) j) /\
  (forall i, (i < block * width \/ (block + 1) * width <= i)%Z -> m' 2%nat i = m 2%nat i) /\
  (forall i, m' 0%nat i = m 0%nat i).
Proof.
  intros m m' P. unfold softmax_block in P.
  inversion P as [|p1 ps1 x1 l1 y1 I1 P1]; subst. inversion P1 as [|p2 ps2 x2 l2 y2 I2 P2]; subst. inversion P2 as [|p3 ps3 x3 l3 y3 I3 P3]; subst.
  inversion P3 as [|p4 ps4 x4 l4 y4 I4 P4]; subst. inversion P4 as [|p5 ps5 x5 l5 y5 I5 P5]; subst. inversion P5; subst. clear P P1 P2 P3 P4 P5.
  destruct (part1 _ _ I1) as (A1 & _). set (m1 := exec l1 m) in *. destruct (part2 _ _ I2) as (A2 & _). set (m2 := exec l2 m1) in *.
  destruct (part3 _ _ I3) as (A3 & B3 & C3 & D3). set (m3 := exec l3 m2) in *. destruct (part4 _ _ I4) as (A4 & B4). set (m4 := exec l4 m3) in *.
  destruct (part5 _ _ I5) as (A5 & B5 & C5). set (m5 := exec l5 m4) in *. split; [|split].
  - intros j Hj. rewrite B5, B4, (A4 2%nat) by (try lia; congruence). rewrite B3 by lia.
    rewrite (map_ext_in (m3 3%nat) (fun t => lsum (map (fun i => exp (m2 0%nat (block * width + i)%Z - m2 1%nat block)) (own_ t)))) by (intros t Ht; apply in_zrange in Ht; now apply D3).
    rewrite own_sum. assert (Z : forall i, m2 0%nat i = m 0%nat i) by (intros i; rewrite A2, A1 by congruence; reflexivity). rewrite Z.
    set (T := m2 1%nat block). rewrite (Rsum_ext _ _ (fun k => exp (row m k) * exp (- T))) by (intros k _; cbv beta; rewrite Z, <- exp_plus; reflexivity).
    rewrite Rsum_scal_r, softmax_plain. unfold Rminus. rewrite exp_plus.
    assert (Q : 0 < Rsum (S n) (fun k => exp (row m k))) by (apply Rsum_pos; [lia | intros; apply exp_pos]). assert (H := exp_pos (- T)). cbv beta in Q |- *. field. lra.
  - intros i Hi. rewrite C5, A4, C3, A2, A1 by (try assumption; congruence). reflexivity.
  - intros i. rewrite A5, A4, A3, A2, A1 by congruence. reflexivity.
Qed.
Theorem C60_softmax_races : forall m,
  race_free (softmax_1 FLT_MAX width block m) /\ race_free (softmax_2 FLT_MAX block m) /\ race_free (softmax_3 width block m) /\ race_free (softmax_4 block m) /\ race_free (softmax_5 width block m).
Proof.
  intros m. assert (S1 : forall w, race_free [[w]]).
  { intros w [|k] [|k'] t t' v v' H H' N; try congruence; cbn in H, H'; try (destruct k; discriminate); destruct k'; discriminate. }
  split; [|split; [apply S1 | split; [|split; [apply S1|]]]]; apply threads_race_free.
  - intros k k' w w' _ _ N [<-|[]] [<-|[]] E. cbn in E. congruence.
  - intros k k' w w' _ _ N Hw Hw' E. cbv zeta in Hw, Hw'. apply in_app_iff in Hw as [Hw|[<-|[]]], Hw' as [Hw'|[<-|[]]].
    + apply in_map_iff in Hw as (i & <- & Hi), Hw' as (i' & <- & Hi'). cbn in E. injection E as E. apply in_own in Hi, Hi'. replace i' with i in Hi' by lia. lia.
    + apply in_map_iff in Hw as (i & <- & Hi). discriminate.
    + apply in_map_iff in Hw' as (i & <- & Hi). discriminate.
    + cbn in E. congruence.
  - intros k k' w w' _ _ N Hw Hw' E. apply in_map_iff in Hw as (i & <- & Hi), Hw' as (i' & <- & Hi'). cbn in E. injection E as E. apply in_own in Hi, Hi'. replace i' with i in Hi' by lia. lia.
Qed.
(** As on the CPU, what is subtracted before exponentiation is the largest entry of the
    row, so nothing overflows (when no entry is below -FLT_MAX). *)
Theorem C60_softmax_max : forall m m', phases [softmax_1 FLT_MAX width block; softmax_2 FLT_MAX block] m m' ->
  (forall k, (k <= n)%nat -> - FLT_MAX <= row m k) -> m' 1%nat block = amax n (row m).
Proof.
  intros m m' P Hlow. inversion P as [|p1 ps1 x1 l1 y1 I1 P1]; subst. inversion P1 as [|p2 ps2 x2 l2 y2 I2 P2]; subst. inversion P2; subst. clear P P1 P2.
  destruct (part1 _ _ I1) as (_ & B1). set (m1 := exec l1 m) in *. destruct (part2 _ _ I2) as (_ & B2). rewrite B2. clear B2 I2.
  destruct (fold_max (m1 3%nat) (zrange 32) (- FLT_MAX)) as (L & U & E). set (M := fold_left _ _ _) in *.
  assert (G : forall k, (k <= n)%nat -> row m k <= M).
  { intros k Hk. cbv beta. assert (Q := Z.mod_pos_bound (Z.of_nat k) 32 ltac:(lia)). eapply Rle_trans; [|apply (U (Z.of_nat k mod 32)%Z), in_zrange, Q]. rewrite B1 by exact Q.
    apply (fold_max (fun i => m 0%nat (block * width + i)%Z)). apply in_own. split; [lia | reflexivity]. }
  assert (W : forall k x, (forall j, (j <= k)%nat -> x j <= M) -> amax k x <= M).
  { induction k as [|k IH]; intros x H; cbn; [apply H; lia|]. apply Rmax_lub; [apply IH; intros; apply H; lia | apply H; lia]. }
  apply Rle_antisym; [|apply W; exact G].
  assert (F : - FLT_MAX <= amax n (row m)) by (eapply Rle_trans; [apply (Hlow O); lia | apply (amax_ge n (row m) O); lia]).
  destruct E as [->|(t & Ht & ->)]; [exact F|]. apply in_zrange in Ht. rewrite B1 by exact Ht.
  destruct (fold_max (fun i => m 0%nat (block * width + i)%Z) (own_ t) (- FLT_MAX)) as (_ & _ & [E|(i & Hi & E)]); rewrite E; [exact F|].
  apply in_own in Hi. assert (A := amax_ge n (row m) (Z.to_nat i) ltac:(lia)). cbv beta in A. now rewrite Z2Nat.id in A by lia.
Qed.
End SoftmaxKernel.
Print Assumptions C60_softmax.
Print Assumptions C60_softmax_races.
Print Assumptions C60_softmax_max.
Example C60_softmax_case : exists m', softmax_block 1000 (Z.of_nat 3) 1 (fun _ i => IZR i) m' /\ m' 2%nat 4%Z = softmax 2 (fun k => IZR (3 + Z.of_nat k)) 1%nat /\ m' 2%nat 2%Z = 2.
Proof.
  assert (E : forall ps m, exists m', phases ps m m').
  { induction ps as [|p ps IH]; intros m; [exists m; constructor|]. destruct (interleaving_exists (p m)) as (l & I). destruct (IH (exec l m)) as (m' & P). exists m'. now apply one_phase with l. }
  destruct (E [softmax_1 1000 (Z.of_nat 3) 1; softmax_2 1000 1; softmax_3 (Z.of_nat 3) 1; softmax_4 1; softmax_5 (Z.of_nat 3) 1] (fun _ i => IZR i)) as (m' & P). exists m'. split; [exact P|].
  destruct (C60_softmax 1000 2 1 _ _ P) as (A & B & _). split; [exact (A 1%nat ltac:(lia)) | apply (B 2%Z); lia].
Qed.
