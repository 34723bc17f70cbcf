(** C60: the GPU handler's convolution and pooling compute what the CPU handler computes,
    in every order in which the threads may run. *)
From Coq Require Import Reals ZArith Arith List Bool Lia Lra FunctionalExtensionality.
From Verif Require Import NumBase NumpyModel NumpyProps ConvModel ConvBase ConvProps PoolModel PoolProps CudaModel CudaBase CudaProps.
Import ListNotations.
Open Scope R_scope.

(** ** im2col *)
Lemma flatn_inj (C i j i' j' : nat) : (j < C)%nat -> (j' < C)%nat -> (i * C + j = i' * C + j')%nat -> i = i' /\ j = j'.
Proof. intros H H' E. assert (i = i') by nia. subst. lia. Qed.
(** The windows in which a row (or column) of the image lies: start and end as the kernels
    compute them *)
Lemma windows (s k n : nat) (H h : Z) : (0 < s)%nat -> (0 <= H)%Z -> (0 <= h < Z.of_nat n)%Z ->
  let first := if (H <? Z.of_nat k)%Z then 0%Z else (Z.quot (H - Z.of_nat k) (Z.of_nat s) + 1)%Z in
  (first <= h < Z.min (Z.quot H (Z.of_nat s) + 1) (Z.of_nat n))%Z <-> (h * Z.of_nat s <= H < h * Z.of_nat s + Z.of_nat k)%Z.
Proof.
  intros Hs HH Hh. cbv zeta. assert (A : forall x, (0 <= x)%Z -> (h <= Z.quot x (Z.of_nat s) <-> h * Z.of_nat s <= x)%Z).
  { intros x Hx. rewrite Z.quot_div_nonneg by lia. assert (E := Z.div_mod x (Z.of_nat s) ltac:(lia)). assert (M := Z.mod_pos_bound x (Z.of_nat s) ltac:(lia)). split; nia. }
  assert (B := A H HH). destruct (Z.ltb_spec H (Z.of_nat k)); [lia|]. assert (C := A (H - Z.of_nat k)%Z ltac:(lia)). lia.
Qed.
Lemma first_nonneg (s k : nat) (H : Z) : (0 <= H)%Z -> (0 <= if (H <? Z.of_nat k)%Z then 0%Z else (Z.quot (H - Z.of_nat k) (Z.of_nat s) + 1)%Z)%Z.
Proof. intros HH. destruct (Z.ltb_spec H (Z.of_nat k)); [lia|]. assert (0 <= Z.quot (H - Z.of_nat k) (Z.of_nat s))%Z by (destruct s; [rewrite Z.quot_0_r_ext by lia; lia | apply Z.quot_pos; lia]). lia. Qed.

Section I.
Variables (height width channels : nat) (kernel_h kernel_w padding stride_h stride_w : nat).
Notation HC := (height_col height kernel_h padding stride_h).
Notation WC := (width_col width kernel_w padding stride_w).
Notation pad := (padded height width channels).
Notation K := (num_kernel_params channels kernel_h kernel_w).
Notation P := (num_output_pixels height width kernel_h kernel_w padding stride_h stride_w).
Notation i2c := (im2col height width channels kernel_h kernel_w padding stride_h stride_w).
Notation c2i := (col2im height width channels kernel_h kernel_w padding stride_h stride_w).
Notation cpos := (col_pos width channels kernel_h kernel_w padding stride_w).
Notation g_im2col := (gpu_im2col height width channels kernel_h kernel_w padding stride_h stride_w HC WC).
Notation g_col2im := (gpu_col2im height width channels kernel_h kernel_w padding stride_h stride_w HC WC).
Notation body := (im2col_body height width channels kernel_h kernel_w padding stride_h stride_w WC).
Notation image_of data := (fun k : nat => data (Z.of_nat k)).

Lemma cpos_inj h w i j c h' w' i' j' c' : (w < WC)%nat -> (i < kernel_h)%nat -> (j < kernel_w)%nat -> (c < channels)%nat ->
  (w' < WC)%nat -> (i' < kernel_h)%nat -> (j' < kernel_w)%nat -> (c' < channels)%nat -> cpos h w i j c = cpos h' w' i' j' c' ->
  h = h' /\ w = w' /\ i = i' /\ j = j' /\ c = c'.
Proof.
  intros Hw Hi Hj Hc Hw' Hi' Hj' Hc' E. unfold col_pos in E.
  assert (L1 := ltL kernel_w channels j c Hj Hc). assert (L2 := ltL kernel_h _ i _ Hi L1). assert (L3 := ltL WC _ w _ Hw L2).
  assert (L1' := ltL kernel_w channels j' c' Hj' Hc'). assert (L2' := ltL kernel_h _ i' _ Hi' L1'). assert (L3' := ltL WC _ w' _ Hw' L2').
  apply flatn_inj in E as [-> E]; [|assumption|assumption]. apply flatn_inj in E as [-> E]; [|assumption|assumption].
  apply flatn_inj in E as [-> E]; [|assumption|assumption]. apply flatn_inj in E as [-> E]; [|assumption|assumption]. tauto.
Qed.
Lemma split_flat n L k : (k < n * L)%nat -> exists i q, (i < n)%nat /\ (q < L)%nat /\ k = (i * L + q)%nat.
Proof.
  intros H. assert (L <> 0)%nat by (intros ->; lia). exists (k / L)%nat, (k mod L)%nat. assert (E := Nat.div_mod k L ltac:(assumption)).
  repeat split; [apply Nat.div_lt_upper_bound; lia | apply Nat.mod_upper_bound; assumption | lia].
Qed.
Lemma cpos_surj k : (k < HC * WC * K)%nat -> exists h w i j c, (h < HC)%nat /\ (w < WC)%nat /\ (i < kernel_h)%nat /\ (j < kernel_w)%nat /\ (c < channels)%nat /\ k = cpos h w i j c.
Proof.
  intros H. unfold num_kernel_params in H. replace (HC * WC * (kernel_h * kernel_w * channels))%nat with (HC * (WC * (kernel_h * (kernel_w * channels))))%nat in H by ring.
  apply split_flat in H as (h & q & Hh & H & ->). apply split_flat in H as (w & q1 & Hw & H & ->). apply split_flat in H as (i & q2 & Hi & H & ->). apply split_flat in H as (j & c & Hj & Hc & ->).
  exists h, w, i, j, c. tauto.
Qed.
(** the writes of one thread *)
Definition value (data : Z -> R) (h w i j c : nat) : R :=
  pad (image_of data) (- Z.of_nat padding + Z.of_nat h * Z.of_nat stride_h + Z.of_nat i)%Z (- Z.of_nat padding + Z.of_nat w * Z.of_nat stride_w + Z.of_nat j)%Z c.
Lemma body_writes data h w c : (w < WC)%nat -> (c < channels)%nat ->
  body data (Z.of_nat ((h * WC + w) * channels + c))
  = flat_map (fun i => map (fun j => Put 0 (Z.of_nat (cpos h w i j c)) (value data h w i j c)) (seq 0 kernel_w)) (seq 0 kernel_h).
Proof.
  intros Hw Hc. unfold im2col_body. cbv zeta.
  replace (Z.of_nat ((h * WC + w) * channels + c)) with (Z.of_nat (h * WC + w) * Z.of_nat channels + Z.of_nat c)%Z by lia. rewrite quot_flat, rem_flat by lia.
  replace (Z.of_nat (h * WC + w)) with (Z.of_nat h * Z.of_nat WC + Z.of_nat w)%Z by lia. rewrite quot_flat, rem_flat by lia.
  set (base := ((Z.of_nat h * Z.of_nat WC + Z.of_nat w) * Z.of_nat channels * Z.of_nat kernel_h * Z.of_nat kernel_w + Z.of_nat c)%Z).
  match goal with |- context [loop kernel_h ?b ?s] => set (bd := b) end.
  assert (J : forall n i ws p, (n <= kernel_w)%nat -> p = (base + Z.of_nat i * Z.of_nat kernel_w * Z.of_nat channels)%Z ->
    loop n (fun j (st : list write * Z) => let '(ws, q) := st in
      (ws ++ [Put 0 q (if ((0 <=? Z.of_nat h * Z.of_nat stride_h - Z.of_nat padding + Z.of_nat i) && (0 <=? Z.of_nat w * Z.of_nat stride_w - Z.of_nat padding + Z.of_nat j) &&
         (Z.of_nat h * Z.of_nat stride_h - Z.of_nat padding + Z.of_nat i <? Z.of_nat height) && (Z.of_nat w * Z.of_nat stride_w - Z.of_nat padding + Z.of_nat j <? Z.of_nat width))%Z%bool
         then data (((Z.of_nat h * Z.of_nat stride_h - Z.of_nat padding + Z.of_nat i) * Z.of_nat width + (Z.of_nat w * Z.of_nat stride_w - Z.of_nat padding + Z.of_nat j)) * Z.of_nat channels + Z.of_nat c)%Z else 0)], (q + Z.of_nat channels)%Z)) (ws, p)
    = (ws ++ map (fun j => Put 0 (Z.of_nat (cpos h w i j c)) (value data h w i j c)) (seq 0 n), (p + Z.of_nat n * Z.of_nat channels)%Z)).
  { induction n as [|n IH]; intros i ws p Hn Hp; cbn [loop]; [cbn; rewrite app_nil_r; f_equal; lia|]. rewrite IH by (try lia; assumption).
    rewrite seq_S, map_app, app_assoc. cbn [map Nat.add]. f_equal; [|lia]. f_equal. f_equal. f_equal.
    - subst p base. unfold col_pos. lia.
    - unfold value, padded. set (y := (- Z.of_nat padding + Z.of_nat h * Z.of_nat stride_h + Z.of_nat i)%Z). set (x := (- Z.of_nat padding + Z.of_nat w * Z.of_nat stride_w + Z.of_nat n)%Z).
      replace (Z.of_nat h * Z.of_nat stride_h - Z.of_nat padding + Z.of_nat i)%Z with y by (unfold y; lia). replace (Z.of_nat w * Z.of_nat stride_w - Z.of_nat padding + Z.of_nat n)%Z with x by (unfold x; lia).
      destruct (Z.leb_spec 0 y), (Z.leb_spec 0 x), (Z.ltb_spec y (Z.of_nat height)), (Z.ltb_spec x (Z.of_nat width)); cbn [andb]; try reflexivity.
      f_equal. rewrite Nat2Z.inj_add, Nat2Z.inj_mul, Z2Nat.id by nia. lia. }
  assert (G : forall n, (n <= kernel_h)%nat -> loop n bd ([], base) =
    (flat_map (fun i => map (fun j => Put 0 (Z.of_nat (cpos h w i j c)) (value data h w i j c)) (seq 0 kernel_w)) (seq 0 n), (base + Z.of_nat n * Z.of_nat kernel_w * Z.of_nat channels)%Z)).
  { induction n as [|n IH]; intros Hn; cbn [loop]; [cbn; f_equal; lia|]. rewrite IH by lia. unfold bd at 1. rewrite J by (try lia; reflexivity).
    rewrite seq_S, flat_map_app. cbn [flat_map Nat.add]. rewrite app_nil_r. f_equal. lia. }
  rewrite G by lia. reflexivity.
Qed.
Lemma in_body data h w c x : (w < WC)%nat -> (c < channels)%nat -> In x (body data (Z.of_nat ((h * WC + w) * channels + c))) <->
  exists i j, (i < kernel_h)%nat /\ (j < kernel_w)%nat /\ x = Put 0 (Z.of_nat (cpos h w i j c)) (value data h w i j c).
Proof.
  intros Hw Hc. rewrite body_writes by assumption. rewrite in_flat_map. split.
  - intros (i & Hi & Hx). apply in_map_iff in Hx as (j & <- & Hj). apply in_seq in Hi, Hj. exists i, j. repeat split; lia.
  - intros (i & j & Hi & Hj & ->). exists i. split; [apply in_seq; lia|]. apply in_map_iff. exists j. split; [reflexivity | apply in_seq; lia].
Qed.
Lemma index3 (k : Z) : (0 <= k < Z.of_nat (HC * WC * channels))%Z -> exists h w c, (h < HC)%nat /\ (w < WC)%nat /\ (c < channels)%nat /\ k = Z.of_nat ((h * WC + w) * channels + c).
Proof.
  intros H. assert (Hk : (Z.to_nat k < HC * WC * channels)%nat) by lia. apply split_flat in Hk as (r & c & Hr & Hc & E). apply split_flat in Hr as (h & w & Hh & Hw & ->). exists h, w, c. repeat split; try assumption. lia.
Qed.
Theorem C60_im2col : forall data l m, interleaving (g_im2col data) l ->
  race_free (g_im2col data) /\ forall k, (k < HC * WC * K)%nat -> exec l m 0%nat (Z.of_nat k) = i2c (image_of data) (fun _ => 0) k.
Proof.
  intros data l m I. unfold gpu_im2col in *. cbv zeta in *. split.
  - apply launch_race_free; [lia|]. cbn [fst]. intros k k' x x' Hk Hk' N Hx Hx' E. apply index3 in Hk as (h & w & c & Hh & Hw & Hc & ->). apply index3 in Hk' as (h' & w' & c' & Hh' & Hw' & Hc' & ->).
    apply in_body in Hx as (i & j & Hi & Hj & ->); [|assumption|assumption]. apply in_body in Hx' as (i' & j' & Hi' & Hj' & ->); [|assumption|assumption]. cbn in E. injection E as E. apply Nat2Z.inj in E.
    apply cpos_inj in E as (-> & -> & _ & _ & ->); try assumption. now apply N.
  - intros k Hk. apply cpos_surj in Hk as (h & w & i & j & c & Hh & Hw & Hi & Hj & Hc & ->). rewrite im2col_at by assumption. fold (value data h w i j c).
    assert (B : (0 <= Z.of_nat ((h * WC + w) * channels + c) < Z.of_nat (HC * WC * channels))%Z) by (assert (Q := ltL _ _ _ _ (ltL _ _ _ _ Hh Hw) Hc); lia).
    rewrite (launch_owner _ _ (Zle_0_nat _) l m 0%nat _ _ I B); cbn [fst].
    + apply exec_put; [apply in_body; [assumption | assumption | exists i, j; tauto]|].
      intros x Hx E. apply in_body in Hx as (i' & j' & Hi' & Hj' & ->); [|assumption|assumption]. cbn in E. injection E as E. apply Nat2Z.inj in E. apply cpos_inj in E as (_ & _ & -> & -> & _); try assumption. reflexivity.
    + intros k' x Hk' N Hx E. apply index3 in Hk' as (h' & w' & c' & Hh' & Hw' & Hc' & ->). apply in_body in Hx as (i' & j' & Hi' & Hj' & ->); [|assumption|assumption].
      cbn in E. injection E as E. apply Nat2Z.inj in E. apply cpos_inj in E as (-> & -> & _ & _ & ->); try assumption. now apply N.
Qed.

(** ** col2im *)
(** the kernel gathers what the CPU handler scatters *)
Lemma for_range2 lo hi lo2 hi2 (g : Z -> Z -> R) : for_range lo hi (fun h v => for_range lo2 hi2 (fun w v => v + g h w) v) 0
  = Rsum (Z.to_nat (hi - lo)) (fun i => Rsum (Z.to_nat (hi2 - lo2)) (fun j => g (lo + Z.of_nat i)%Z (lo2 + Z.of_nat j)%Z)).
Proof.
  rewrite (for_range_sum lo hi (fun h => Rsum (Z.to_nat (hi2 - lo2)) (fun j => g h (lo2 + Z.of_nat j)%Z))); [lra|].
  intros z v. now apply (for_range_sum lo2 hi2 (g z)).
Qed.
Lemma window_index (k : nat) (d : Z) : (if ((0 <=? d)%Z && (d <? Z.of_nat k)%Z)%bool then exists i, (i < k)%nat /\ d = Z.of_nat i else forall i, (i < k)%nat -> d <> Z.of_nat i).
Proof. destruct (Z.leb_spec 0 d), (Z.ltb_spec d (Z.of_nat k)); cbn; try (intros; lia). exists (Z.to_nat d). lia. Qed.
Lemma Rsum_at (k : nat) (d : Z) (g : nat -> R) : Rsum k (fun i => if (d =? Z.of_nat i)%Z then g i else 0) = if ((0 <=? d)%Z && (d <? Z.of_nat k)%Z)%bool then g (Z.to_nat d) else 0.
Proof.
  assert (H := window_index k d). destruct ((0 <=? d)%Z && (d <? Z.of_nat k)%Z)%bool.
  - destruct H as (i & Hi & ->). rewrite (Rsum_single k i); [now rewrite Z.eqb_refl, Nat2Z.id | assumption |]. intros j _ N. destruct (Z.eqb_spec (Z.of_nat i) (Z.of_nat j)); [lia | reflexivity].
  - apply Rsum_zero. intros i Hi. specialize (H i Hi). destruct (Z.eqb_spec d (Z.of_nat i)); [contradiction | reflexivity].
Qed.
Lemma scatter col z y x c : (y < height)%nat -> (x < width)%nat -> (c < channels)%nat ->
  c2i col z (Z.of_nat ((y * width + x) * channels + c)) = z (Z.of_nat ((y * width + x) * channels + c)) +
    Rsum HC (fun h => let dy := (Z.of_nat y + Z.of_nat padding - Z.of_nat h * Z.of_nat stride_h)%Z in if ((0 <=? dy)%Z && (dy <? Z.of_nat kernel_h)%Z)%bool then
    Rsum WC (fun w => let dx := (Z.of_nat x + Z.of_nat padding - Z.of_nat w * Z.of_nat stride_w)%Z in if ((0 <=? dx)%Z && (dx <? Z.of_nat kernel_w)%Z)%bool then
      col (cpos h w (Z.to_nat dy) (Z.to_nat dx) c) else 0) else 0).
Proof.
  intros Hy Hx Hc. rewrite col2im_at. f_equal. apply Rsum_ext; intros h _. cbv zeta. set (dy := (Z.of_nat y + Z.of_nat padding - Z.of_nat h * Z.of_nat stride_h)%Z).
  transitivity (Rsum WC (fun w => let dx := (Z.of_nat x + Z.of_nat padding - Z.of_nat w * Z.of_nat stride_w)%Z in
    Rsum kernel_h (fun i => if (dy =? Z.of_nat i)%Z then Rsum kernel_w (fun j => if (dx =? Z.of_nat j)%Z then col (cpos h w i j c) else 0) else 0))).
  - apply Rsum_ext; intros w _. cbv zeta. set (dx := (Z.of_nat x + Z.of_nat padding - Z.of_nat w * Z.of_nat stride_w)%Z). apply Rsum_ext; intros i _.
    assert (Q : forall Y X c', (0 <= X < Z.of_nat width)%Z -> (c' < channels)%nat -> (Z.of_nat ((y * width + x) * channels + c) = (Y * Z.of_nat width + X) * Z.of_nat channels + Z.of_nat c')%Z -> Y = Z.of_nat y /\ X = Z.of_nat x /\ c = c').
    { intros Y X c' HX Hc' E. replace (Z.of_nat ((y * width + x) * channels + c)) with ((Z.of_nat y * Z.of_nat width + Z.of_nat x) * Z.of_nat channels + Z.of_nat c)%Z in E by lia.
      apply flat_inj in E as [E E']; [|lia|lia]. apply flat_inj in E as [E E'']; lia. }
    destruct (Z.eqb_spec dy (Z.of_nat i)) as [Ey|Ny].
    + apply Rsum_ext; intros j _. destruct (Z.eqb_spec dx (Z.of_nat j)) as [Ex|Nx].
      * replace (- Z.of_nat padding + Z.of_nat h * Z.of_nat stride_h + Z.of_nat i)%Z with (Z.of_nat y) by (unfold dy in Ey; lia). replace (- Z.of_nat padding + Z.of_nat w * Z.of_nat stride_w + Z.of_nat j)%Z with (Z.of_nat x) by (unfold dx in Ex; lia).
        unfold in_image. destruct (Z.leb_spec 0 (Z.of_nat y)), (Z.ltb_spec (Z.of_nat y) (Z.of_nat height)), (Z.leb_spec 0 (Z.of_nat x)), (Z.ltb_spec (Z.of_nat x) (Z.of_nat width)); try lia. cbn [andb].
        rewrite (Rsum_single channels c); [|assumption|].
        -- destruct (Z.eqb_spec (Z.of_nat ((y * width + x) * channels + c)) ((Z.of_nat y * Z.of_nat width + Z.of_nat x) * Z.of_nat channels + Z.of_nat c)); [reflexivity | lia].
        -- intros c' Hc' N. destruct (Z.eqb_spec (Z.of_nat ((y * width + x) * channels + c)) ((Z.of_nat y * Z.of_nat width + Z.of_nat x) * Z.of_nat channels + Z.of_nat c')); [lia | reflexivity].
      * destruct (in_image _ _ _ _) eqn:In; [|reflexivity]. unfold in_image in In. rewrite !andb_true_iff, !Z.leb_le, !Z.ltb_lt in In. apply Rsum_zero; intros c' Hc'.
        match goal with |- (if (?a =? ?b)%Z then _ else _) = _ => destruct (Z.eqb_spec a b) as [E|]; [|reflexivity] end. apply Q in E as (_ & E & _); [unfold dx in Nx; lia | lia | assumption].
    + apply Rsum_zero; intros j _. destruct (in_image _ _ _ _) eqn:In; [|reflexivity]. unfold in_image in In. rewrite !andb_true_iff, !Z.leb_le, !Z.ltb_lt in In. apply Rsum_zero; intros c' Hc'.
      match goal with |- (if (?a =? ?b)%Z then _ else _) = _ => destruct (Z.eqb_spec a b) as [E|]; [|reflexivity] end. apply Q in E as (E & _ & _); [unfold dy in Ny; lia | lia | assumption].
  - transitivity (Rsum WC (fun w => let dx := (Z.of_nat x + Z.of_nat padding - Z.of_nat w * Z.of_nat stride_w)%Z in
      if ((0 <=? dy)%Z && (dy <? Z.of_nat kernel_h)%Z)%bool then if ((0 <=? dx)%Z && (dx <? Z.of_nat kernel_w)%Z)%bool then col (cpos h w (Z.to_nat dy) (Z.to_nat dx) c) else 0 else 0)).
    + apply Rsum_ext; intros w _. cbv zeta. rewrite Rsum_at. destruct ((0 <=? dy)%Z && (dy <? Z.of_nat kernel_h)%Z)%bool; [|reflexivity]. apply Rsum_at.
    + destruct ((0 <=? dy)%Z && (dy <? Z.of_nat kernel_h)%Z)%bool; [reflexivity | now apply Rsum_zero].
Qed.
Lemma gather data y x c : (0 < stride_h)%nat -> (0 < stride_w)%nat -> (y < height)%nat -> (x < width)%nat -> (c < channels)%nat ->
  exists v, col2im_body width channels kernel_h kernel_w padding stride_h stride_w HC WC data (Z.of_nat ((y * width + x) * channels + c)) = [Inc 0 (Z.of_nat ((y * width + x) * channels + c)) v] /\
  forall z, c2i (image_of data) z (Z.of_nat ((y * width + x) * channels + c)) = z (Z.of_nat ((y * width + x) * channels + c)) + v.
Proof.
  intros Hsh Hsw Hy Hx Hc. eexists. split; [reflexivity|]. intros z. rewrite scatter by assumption. f_equal.
  replace (Z.of_nat ((y * width + x) * channels + c)) with (Z.of_nat (y * width + x) * Z.of_nat channels + Z.of_nat c)%Z by lia. rewrite quot_flat, rem_flat by lia.
  replace (Z.of_nat (y * width + x)) with (Z.of_nat y * Z.of_nat width + Z.of_nat x)%Z by lia. rewrite quot_flat, rem_flat by lia.
  set (Hh := (Z.of_nat y + Z.of_nat padding)%Z). set (Ww := (Z.of_nat x + Z.of_nat padding)%Z). rewrite for_range2.
  set (hs := if (Hh <? Z.of_nat kernel_h)%Z then _ else _). set (ws := if (Ww <? Z.of_nat kernel_w)%Z then _ else _). set (he := Z.min _ (Z.of_nat HC)). set (we := Z.min _ (Z.of_nat WC)).
  match goal with |- _ = Rsum _ (fun i => Rsum _ (fun j => data (@?a i j))) => idtac end.
  set (g := fun h w : Z => data ((Hh * Z.of_nat kernel_w + Ww) * Z.of_nat channels + Z.of_nat c + h * (Z.of_nat WC * (Z.of_nat kernel_h * Z.of_nat kernel_w * Z.of_nat channels) - Z.of_nat stride_h * Z.of_nat kernel_w * Z.of_nat channels) + w * (Z.of_nat kernel_h * Z.of_nat kernel_w * Z.of_nat channels - Z.of_nat stride_w * Z.of_nat channels))%Z).
  change (Rsum HC (fun h => let dy := (Hh - Z.of_nat h * Z.of_nat stride_h)%Z in if ((0 <=? dy)%Z && (dy <? Z.of_nat kernel_h)%Z)%bool then
    Rsum WC (fun w => let dx := (Ww - Z.of_nat w * Z.of_nat stride_w)%Z in if ((0 <=? dx)%Z && (dx <? Z.of_nat kernel_w)%Z)%bool then data (Z.of_nat (cpos h w (Z.to_nat dy) (Z.to_nat dx) c)) else 0) else 0)
    = Rsum (Z.to_nat (he - hs)) (fun i => Rsum (Z.to_nat (we - ws)) (fun j => g (hs + Z.of_nat i)%Z (ws + Z.of_nat j)%Z))).
  rewrite (Rsum_part HC hs he (fun h => Rsum (Z.to_nat (we - ws)) (fun j => g h (ws + Z.of_nat j)%Z))) by (unfold hs, he; try apply first_nonneg; unfold Hh; lia).
  apply Rsum_ext; intros h Lh. cbv zeta. assert (A := windows stride_h kernel_h HC Hh (Z.of_nat h) Hsh ltac:(unfold Hh; lia) ltac:(lia)). cbv zeta in A. fold hs he in A.
  set (dy := (Hh - Z.of_nat h * Z.of_nat stride_h)%Z). replace ((hs <=? Z.of_nat h)%Z && (Z.of_nat h <? he)%Z)%bool with ((0 <=? dy)%Z && (dy <? Z.of_nat kernel_h)%Z)%bool.
  2: { apply eq_true_iff_eq. rewrite !andb_true_iff, !Z.leb_le, !Z.ltb_lt. unfold dy. lia. }
  destruct (Z.leb_spec 0 dy), (Z.ltb_spec dy (Z.of_nat kernel_h)); cbn [andb]; try reflexivity.
  rewrite (Rsum_part WC ws we (g (Z.of_nat h))) by (unfold ws, we; try apply first_nonneg; unfold Ww; lia).
  apply Rsum_ext; intros w Lw. cbv zeta. assert (B := windows stride_w kernel_w WC Ww (Z.of_nat w) Hsw ltac:(unfold Ww; lia) ltac:(lia)). cbv zeta in B. fold ws we in B.
  set (dx := (Ww - Z.of_nat w * Z.of_nat stride_w)%Z). replace ((ws <=? Z.of_nat w)%Z && (Z.of_nat w <? we)%Z)%bool with ((0 <=? dx)%Z && (dx <? Z.of_nat kernel_w)%Z)%bool.
  2: { apply eq_true_iff_eq. rewrite !andb_true_iff, !Z.leb_le, !Z.ltb_lt. unfold dx. lia. }
  destruct (Z.leb_spec 0 dx), (Z.ltb_spec dx (Z.of_nat kernel_w)); cbn [andb]; try reflexivity.
  unfold g. f_equal. unfold col_pos. repeat rewrite ?Nat2Z.inj_add, ?Nat2Z.inj_mul; rewrite !Z2Nat.id by assumption. unfold dy, dx. ring.
Qed.
Lemma image3 (k : Z) : (0 <= k < Z.of_nat (height * width * channels))%Z -> exists y x c, (y < height)%nat /\ (x < width)%nat /\ (c < channels)%nat /\ k = Z.of_nat ((y * width + x) * channels + c).
Proof.
  intros H. assert (Hk : (Z.to_nat k < height * width * channels)%nat) by lia. apply split_flat in Hk as (r & c & Hr & Hc & E). apply split_flat in Hr as (h & w & Hh & Hw & ->). exists h, w, c. repeat split; try assumption. lia.
Qed.
Theorem C60_col2im : forall data l m, (0 < stride_h)%nat -> (0 < stride_w)%nat -> interleaving (g_col2im data) l ->
  race_free (g_col2im data) /\ forall k, (k < height * width * channels)%nat -> exec l m 0%nat (Z.of_nat k) = c2i (image_of data) (m 0%nat) (Z.of_nat k).
Proof.
  intros data l m Hsh Hsw I. unfold gpu_col2im in *. cbv zeta in *. split.
  - apply launch_race_free; [lia|]. cbn [fst]. intros k k' x x' Hk Hk' N [<-|[]] [<-|[]] E. cbn in E. congruence.
  - intros k Hk. rewrite (launch_owner _ _ (Zle_0_nat _) l m 0%nat (Z.of_nat k) (Z.of_nat k) I); cbn [fst].
    + destruct (image3 (Z.of_nat k) ltac:(lia)) as (y & x & c & Hy & Hx & Hc & E). rewrite E. destruct (gather data y x c Hsh Hsw Hy Hx Hc) as (v & -> & G). rewrite G. unfold exec. cbn [fold_left]. now rewrite perform_same.
    + lia.
    + intros k' x Hk' N [<-|[]] E. cbn in E. congruence.
Qed.

(** ** Convolution *)
Notation g_conv_fwd := (gpu_conv_forward height width channels kernel_h kernel_w padding stride_h stride_w).
Notation g_conv_bwd := (gpu_conv_backward height width channels kernel_h kernel_w padding stride_h stride_w).
Notation conv_fwd := (conv_forward height width channels kernel_h kernel_w padding stride_h stride_w).
Notation conv_bwd := (conv_backward height width channels kernel_h kernel_w padding stride_h stride_w).
Theorem C60_conv_forward : forall a weights bias data out, g_conv_fwd a weights bias data out ->
  forall r f, (r < P)%nat -> out r f = conv_fwd a weights bias (image_of data) r f.
Proof.
  intros a W b data out G r f Hr. destruct G as [l I]. destruct (C60_im2col data l (fun _ _ => 0) I) as [_ E].
  unfold conv_forward. cbv zeta. rewrite C38_inplace. destruct (C60_elementwise a (dot_mm K (fun r q => exec l (fun _ _ => 0) 0%nat (Z.of_nat (r * K + q))) (trans W) r f + b f) 0 0 0 0) as (-> & _). f_equal. f_equal.
  unfold dot_mm. apply Rsum_ext; intros q Hq. f_equal. apply E. apply ltL; [exact Hr | exact Hq].
Qed.
Theorem C60_conv_backward : forall a n F weights inputs outputs dout din result, (0 < stride_h)%nat -> (0 < stride_w)%nat -> g_conv_bwd a n F weights inputs outputs dout din result ->
  let '(din1, dW, db, _) := result in
  let '(din1', dW', db') := conv_bwd a n F weights (fun i => image_of (inputs i)) outputs dout din in
  (forall i k, (k < height * width * channels)%nat -> din1 i (Z.of_nat k) = din1' i (Z.of_nat k)) /\
  (forall f q, (q < K)%nat -> dW f q = dW' f q) /\ (forall f, db f = db' f).
Proof.
  intros a n F W inputs outputs dout din result Hsh Hsw G. unfold gpu_conv_backward in G.
  set (dz := fun i r f => k_act_deriv a (outputs i r f) (dout i r f)) in G.
  assert (Edz : dz = fun i r f => act_deriv a (outputs i r f) (dout i r f)).
  { unfold dz. apply functional_extensionality; intros i. apply functional_extensionality; intros r. apply functional_extensionality; intros f. destruct (C60_elementwise a 0 (outputs i r f) (dout i r f) 0 0) as (_ & E & _). exact E. }
  assert (H := conv_backward_eq height width channels kernel_h kernel_w padding stride_h stride_w a n F W (fun i => image_of (inputs i)) outputs dout din). cbv zeta in H. rewrite <- Edz in H.
  destruct (conv_bwd a n F W (fun i => image_of (inputs i)) outputs dout din) as [[din' dW'] db']. destruct H as (H1 & H2 & H3 & H4).
  assert (J : forall n st st', gpu_conv_images height width channels kernel_h kernel_w padding stride_h stride_w F W inputs dz n st st' -> let '(d0, w0, b0, _) := st in let '(d1, w1, b1, _) := st' in
    (forall i k, (i < n)%nat -> (k < height * width * channels)%nat -> d1 i (Z.of_nat k) = c2i (flat_of channels kernel_h kernel_w (dot_mm F (dz i) W)) (d0 i) (Z.of_nat k)) /\
    (forall i, (n <= i)%nat -> d1 i = d0 i) /\
    (forall f q, (q < K)%nat -> w1 f q = w0 f q + Rsum n (fun i => dot_mm P (trans (dz i)) (cols height width channels kernel_h kernel_w padding stride_h stride_w (image_of (inputs i))) f q)) /\
    (forall f, b1 f = b0 f + Rsum n (fun i => sum0 P (dz i) f))).
  { clear - Hsh Hsw. intros n st st' G. induction G as [[[[d0 w0] b0] c0]|n st st1 st2 G IH S]; [repeat split; intros; try lia; cbn; lra|].
    destruct st as [[[d0 w0] b0] c0]. destruct S as [d1 w1 b1 c1 l1 l2 I1 col1 col2 I2]. destruct IH as (A1 & A2 & A3 & A4). repeat split.
    - intros i k Hi Hk. destruct (Nat.eqb_spec i n) as [->|N]; [|apply A1; [lia | exact Hk]].
      destruct (C60_col2im col2 l2 (fun _ => d1 n) Hsh Hsw I2) as [_ E]. rewrite (E k Hk), (A2 n (le_n n)). f_equal. apply functional_extensionality; intros q. unfold col2, flat_of. now rewrite Nat2Z.id.
    - intros i Hi. destruct (Nat.eqb_spec i n); [lia | apply A2; lia].
    - intros f q Hq. unfold dot_add_mm. cbn [Rsum]. rewrite A3 by exact Hq. rewrite Rplus_assoc. f_equal. f_equal. unfold dot_mm. apply Rsum_ext; intros r Hr. f_equal. unfold cols.
      destruct (C60_im2col (inputs n) l1 (fun _ => c1) I1) as [_ E]. apply E. apply ltL; [exact Hr | exact Hq].
    - intros f. cbn [Rsum]. rewrite A4. unfold num_output_pixels. lra. }
  specialize (J n _ _ G). destruct result as [[[d1 w1] b1] c1]. destruct J as (A1 & A2 & A3 & A4). repeat split.
  - intros i k Hk. destruct (Nat.lt_ge_cases i n) as [L|L]; [rewrite A1, H1 by assumption; reflexivity | rewrite A2, H2 by assumption; reflexivity].
  - intros f q Hq. rewrite A3, H3 by exact Hq. lra.
  - intros f. rewrite A4, H4. lra.
Qed.
End I.
Print Assumptions C60_im2col.
Print Assumptions C60_col2im.
Print Assumptions C60_conv_forward.
Print Assumptions C60_conv_backward.

(** ** Pooling *)
Section P.
Variables (FLT_MAX : R) (num in_h in_w n_channels : nat) (pool_h pool_w padding stride_y stride_x : nat).
Notation oh := (out_h in_h pool_h padding stride_y).
Notation ow := (out_w in_w pool_w padding stride_x).
Notation max_fwd := (maxpool_forward in_h in_w n_channels pool_h pool_w padding stride_y stride_x).
Notation max_bwd := (maxpool_backward in_h in_w n_channels pool_h pool_w padding stride_y stride_x).
Notation avg_fwd := (avgpool_forward in_h in_w pool_h pool_w padding stride_y stride_x).
Notation avg_bwd := (avgpool_backward in_h in_w n_channels pool_h pool_w padding stride_y stride_x).
Notation ymin := (y_min padding stride_y).
Notation ymax := (y_max in_h pool_h padding stride_y).
Notation xmin := (x_min padding stride_x).
Notation xmax := (x_max in_w pool_w padding stride_x).
Notation pos := (pos in_w n_channels).
Notation g_max_fwd := (gpu_maxpool_forward FLT_MAX num in_h in_w n_channels oh ow pool_h pool_w stride_y stride_x padding).
Notation g_max_bwd := (gpu_maxpool_backward num in_h in_w n_channels oh ow).
Notation g_avg_fwd := (gpu_avgpool_forward num in_h in_w n_channels oh ow pool_h pool_w stride_y stride_x padding).
Notation g_avg_bwd := (gpu_avgpool_backward num in_h in_w n_channels oh ow pool_h pool_w stride_y stride_x padding).
(** position of (image, row, column, channel) in a batch of H x W images *)
Definition at4 (H W : nat) (i y x c : nat) : Z := Z.of_nat (((i * H + y) * W + x) * n_channels + c).
(** image [i] of a batch *)
Definition image_at (data : Z -> R) (i : nat) : img := fun y x c => data (Z.of_nat (i * (in_h * in_w * n_channels)) + pos y x c)%Z.
Lemma at4_eq H W i y x c : at4 H W i y x c = (((Z.of_nat i * Z.of_nat H + Z.of_nat y) * Z.of_nat W + Z.of_nat x) * Z.of_nat n_channels + Z.of_nat c)%Z.
Proof. unfold at4. lia. Qed.
Lemma at4_lt H W i y x c : (i < num)%nat -> (y < H)%nat -> (x < W)%nat -> (c < n_channels)%nat -> (0 <= at4 H W i y x c < Z.of_nat (num * H * W * n_channels))%Z.
Proof. intros Hi Hy Hx Hc. unfold at4. assert (Q := ltL _ _ _ _ (ltL _ _ _ _ (ltL _ _ _ _ Hi Hy) Hx) Hc). lia. Qed.
Lemma at4_image data i y x c : image_at data i (Z.of_nat y) (Z.of_nat x) c = data (at4 in_h in_w i y x c).
Proof. unfold image_at, PoolProps.pos, at4. f_equal. lia. Qed.

Lemma max_body data i y x c : (y < oh)%nat -> (x < ow)%nat -> (c < n_channels)%nat -> let k := at4 oh ow i y x c in
  fst (max_fwd_body FLT_MAX in_h in_w n_channels oh ow pool_h pool_w stride_y stride_x padding data k 0)
  = let '(value, idx) := max_scan in_h in_w n_channels pool_h pool_w padding stride_y stride_x (- FLT_MAX) (image_at data i) y x c in
    [Put 0 k value; Put 1 k (IZR (store_int 24 idx))] ++ (if (idx =? -1)%Z then [Put 0 k 0] else []).
Proof.
  intros Hy Hx Hc. cbv zeta. unfold max_fwd_body. cbv zeta. rewrite !at4_eq. rewrite !quot_flat, !rem_flat by lia.
  match goal with |- fst (let '(_, _) := ?a in _) = (let '(_, _) := ?b in _) => replace b with a; [destruct a; reflexivity|] end.
  unfold max_scan, for_range. apply loop_ext; intros a st Ha. apply loop_ext; intros b [v ix] Hb. unfold image_at, PoolProps.pos.
  unfold y_min, x_min. 
  match goal with |- (if Rlt_dec v (data ?p) then _ else _) = (if Rlt_dec v (data ?q) then _ else _) => replace q with p by lia end. reflexivity.
Qed.
Theorem C60_maxpool_forward : forall data l m, interleaving (g_max_fwd data) l ->
  race_free (g_max_fwd data) /\
  forall i y x c, (i < num)%nat -> (y < oh)%nat -> (x < ow)%nat -> (c < n_channels)%nat ->
    let '(value, idx) := max_fwd 24 (- FLT_MAX) (image_at data i) y x c in
    exec l m 0%nat (at4 oh ow i y x c) = value /\ exec l m 1%nat (at4 oh ow i y x c) = IZR idx.
Proof.
  intros data l m I. unfold gpu_maxpool_forward in *. cbv zeta in *.
  assert (C : forall k w, In w (fst (max_fwd_body FLT_MAX in_h in_w n_channels oh ow pool_h pool_w stride_y stride_x padding data k 0)) -> snd (cell w) = k).
  { intros k w. unfold max_fwd_body. cbv zeta. match goal with |- context [let '(_, _) := ?a in _] => destruct a as [v ix] end. cbn [fst]. intros Hw. apply in_app_iff in Hw as [[<-|[<-|[]]]|Hw]; [reflexivity | reflexivity|]. destruct (ix =? -1)%Z; [destruct Hw as [<-|[]]; reflexivity | destruct Hw]. }
  split.
  - apply launch_race_free; [lia|]. intros k k' w w' _ _ N Hw Hw' E. apply N. rewrite <- (C k w Hw), <- (C k' w' Hw'). now rewrite E.
  - intros i y x c Hi Hy Hx Hc. unfold maxpool_forward.
    assert (O : forall a, exec l m a (at4 oh ow i y x c) = exec (fst (max_fwd_body FLT_MAX in_h in_w n_channels oh ow pool_h pool_w stride_y stride_x padding data (at4 oh ow i y x c) 0)) m a (at4 oh ow i y x c)).
    { intros a. apply (launch_owner _ _ (Zle_0_nat _) l m _ _ _ I); [now apply at4_lt|]. intros k w _ N Hw E. apply N. rewrite <- (C k w Hw). now rewrite E. }
    rewrite !O, max_body by assumption. destruct (max_scan _ _ _ _ _ _ _ _ _ _ _ _ _) as [v ix]. set (k := at4 oh ow i y x c).
    destruct (ix =? -1)%Z; unfold exec; cbn [app fold_left]; unfold perform, cell_eqb, cell; cbn [fst snd Nat.eqb]; rewrite Z.eqb_refl; cbn [andb]; split; reflexivity.
Qed.
Lemma avg_body data i y x c : (y < oh)%nat -> (x < ow)%nat -> (c < n_channels)%nat -> let k := at4 oh ow i y x c in
  fst (avg_fwd_body in_h in_w n_channels oh ow pool_h pool_w stride_y stride_x padding data k 0) = [Put 0 k (avg_fwd (image_at data i) y x c)].
Proof.
  intros Hy Hx Hc. cbv zeta. unfold avg_fwd_body. cbv zeta. cbn [fst]. rewrite !at4_eq. rewrite !quot_flat, !rem_flat by lia. f_equal. f_equal. unfold avgpool_forward. f_equal.
  unfold for_range. apply loop_ext; intros a st Ha. apply loop_ext; intros b st' Hb. f_equal. unfold image_at, PoolProps.pos, y_min, x_min. f_equal. lia.
Qed.
Theorem C60_avgpool_forward : forall data l m, interleaving (g_avg_fwd data) l ->
  race_free (g_avg_fwd data) /\
  forall i y x c, (i < num)%nat -> (y < oh)%nat -> (x < ow)%nat -> (c < n_channels)%nat -> exec l m 0%nat (at4 oh ow i y x c) = avg_fwd (image_at data i) y x c.
Proof.
  intros data l m I. unfold gpu_avgpool_forward in *. cbv zeta in *. split.
  - apply launch_race_free; [lia|]. intros k k' w w' _ _ N [<-|[]] [<-|[]] E. cbn in E. congruence.
  - intros i y x c Hi Hy Hx Hc. rewrite (launch_owner _ _ (Zle_0_nat _) l m _ _ (at4 oh ow i y x c) I).
    + rewrite avg_body by assumption. unfold exec. cbn [fold_left]. now rewrite perform_same.
    + now apply at4_lt.
    + intros k w _ N [<-|[]] E. cbn in E. congruence.
Qed.

(** output [y, x, c] of image [i] *)
Definition out_at (data : Z -> R) (i y x c : nat) : R := data (at4 oh ow i y x c).
Lemma avg_gather top_diff i y x c : (0 < stride_y)%nat -> (0 < stride_x)%nat -> (y < in_h)%nat -> (x < in_w)%nat -> (c < n_channels)%nat -> exists v,
  avg_bwd_body in_h in_w n_channels oh ow pool_h pool_w stride_y stride_x padding top_diff (at4 in_h in_w i y x c) = [Inc 0 (at4 in_h in_w i y x c) v] /\
  forall din : img, avg_bwd (out_at top_diff i) din (Z.of_nat y) (Z.of_nat x) c = din (Z.of_nat y) (Z.of_nat x) c + v.
Proof.
  intros Hsy Hsx Hy Hx Hc. eexists. split; [reflexivity|]. intros din. rewrite avg_backward_eq by assumption. f_equal. rewrite !at4_eq. rewrite !quot_flat, !rem_flat by lia.
  set (H := (Z.of_nat y + Z.of_nat padding)%Z). set (W := (Z.of_nat x + Z.of_nat padding)%Z). cbv zeta.
  set (hs := if (H <? Z.of_nat pool_h)%Z then _ else _). set (ws := if (W <? Z.of_nat pool_w)%Z then _ else _). set (he := Z.min _ (Z.of_nat oh)). set (we := Z.min _ (Z.of_nat ow)).
  pose (g := fun ph pw : Z => top_diff (Z.of_nat i * Z.of_nat oh * Z.of_nat ow * Z.of_nat n_channels + Z.of_nat c + (ph * Z.of_nat ow + pw) * Z.of_nat n_channels)%Z /
    IZR ((Z.min (ph * Z.of_nat stride_y - Z.of_nat padding + Z.of_nat pool_h) (Z.of_nat in_h) - Z.max (ph * Z.of_nat stride_y - Z.of_nat padding) 0) *
         (Z.min (pw * Z.of_nat stride_x - Z.of_nat padding + Z.of_nat pool_w) (Z.of_nat in_w) - Z.max (pw * Z.of_nat stride_x - Z.of_nat padding) 0))).
  etransitivity; [|symmetry; exact (for_range2 hs he ws we g)].
  change (Rsum oh (fun yo => Rsum ow (fun xo => if in_windowb in_h in_w pool_h pool_w padding stride_y stride_x yo xo (Z.of_nat y) (Z.of_nat x) then out_at top_diff i yo xo c / IZR ((ymax yo - ymin yo) * (xmax xo - xmin xo)) else 0))
    = Rsum (Z.to_nat (he - hs)) (fun a => Rsum (Z.to_nat (we - ws)) (fun b => g (hs + Z.of_nat a)%Z (ws + Z.of_nat b)%Z))).
  rewrite (Rsum_part oh hs he (fun h => Rsum (Z.to_nat (we - ws)) (fun j => g h (ws + Z.of_nat j)%Z))) by (unfold hs, he; try apply first_nonneg; unfold H; lia).
  apply Rsum_ext; intros yo Ly. assert (A := windows stride_y pool_h oh H (Z.of_nat yo) Hsy ltac:(unfold H; lia) ltac:(lia)). cbv zeta in A. fold hs he in A.
  unfold in_windowb. replace ((ymin yo <=? Z.of_nat y) && (Z.of_nat y <? ymax yo))%Z%bool with ((hs <=? Z.of_nat yo)%Z && (Z.of_nat yo <? he)%Z)%bool.
  2: { apply eq_true_iff_eq. rewrite !andb_true_iff, !Z.leb_le, !Z.ltb_lt. unfold y_min, y_max, H in *. lia. }
  destruct ((hs <=? Z.of_nat yo)%Z && (Z.of_nat yo <? he)%Z)%bool; cbn [andb]; [|now apply Rsum_zero].
  rewrite (Rsum_part ow ws we (g (Z.of_nat yo))) by (unfold ws, we; try apply first_nonneg; unfold W; lia).
  apply Rsum_ext; intros xo Lx. assert (B := windows stride_x pool_w ow W (Z.of_nat xo) Hsx ltac:(unfold W; lia) ltac:(lia)). cbv zeta in B. fold ws we in B.
  replace ((xmin xo <=? Z.of_nat x) && (Z.of_nat x <? xmax xo))%Z%bool with ((ws <=? Z.of_nat xo)%Z && (Z.of_nat xo <? we)%Z)%bool.
  2: { apply eq_true_iff_eq. rewrite !andb_true_iff, !Z.leb_le, !Z.ltb_lt. unfold x_min, x_max, W in *. lia. }
  destruct ((ws <=? Z.of_nat xo)%Z && (Z.of_nat xo <? we)%Z)%bool; [|reflexivity]. unfold g, out_at. unfold Rdiv. apply (f_equal2 Rmult); [f_equal; unfold at4; lia|]. reflexivity.
Qed.
Theorem C60_avgpool_backward : forall top_diff l m, (0 < stride_y)%nat -> (0 < stride_x)%nat -> interleaving (g_avg_bwd top_diff) l ->
  race_free (g_avg_bwd top_diff) /\
  forall i y x c, (i < num)%nat -> (y < in_h)%nat -> (x < in_w)%nat -> (c < n_channels)%nat ->
    exec l m 0%nat (at4 in_h in_w i y x c) = avg_bwd (out_at top_diff i) (image_at (m 0%nat) i) (Z.of_nat y) (Z.of_nat x) c.
Proof.
  intros d l m Hsy Hsx I. unfold gpu_avgpool_backward in *. cbv zeta in *. split.
  - apply launch_race_free; [lia|]. intros k k' w w' _ _ N [<-|[]] [<-|[]] E. cbn in E. congruence.
  - intros i y x c Hi Hy Hx Hc. rewrite (launch_owner _ _ (Zle_0_nat _) l m _ _ (at4 in_h in_w i y x c) I); cbn [fst].
    + destruct (avg_gather d i y x c Hsy Hsx Hy Hx Hc) as (v & -> & G). rewrite G, at4_image. unfold exec. cbn [fold_left]. now rewrite perform_same.
    + now apply at4_lt.
    + intros k w _ N [<-|[]] E. cbn in E. congruence.
Qed.

(** The delta of each output is added at the position that the mask names: for masks that
    name a pixel of the output's channel, or none. *)
Definition proper_mask (mask : Z -> R) (argmax : nat -> nat -> nat -> nat -> Z) : Prop :=
  forall i yo xo c, (i < num)%nat -> (yo < oh)%nat -> (xo < ow)%nat -> (c < n_channels)%nat -> mask (at4 oh ow i yo xo c) = IZR (argmax i yo xo c) /\
    (argmax i yo xo c = (-1)%Z \/ exists y x, (0 <= y < Z.of_nat in_h)%Z /\ (0 <= x < Z.of_nat in_w)%Z /\ argmax i yo xo c = pos y x c).
Lemma quot_size A : (0 < num)%nat -> Z.quot (Z.of_nat (num * A)) (Z.of_nat num) = Z.of_nat A.
Proof. intros H. rewrite Nat2Z.inj_mul, Z.mul_comm. apply Z.quot_mul. lia. Qed.
Lemma max_adds top_diff mask l m a : interleaving (g_max_bwd top_diff mask) l ->
  exec l m 0%nat a = m 0%nat a + Rsum num (fun i => Rsum oh (fun yo => Rsum ow (fun xo => Rsum n_channels (fun c =>
    let k := at4 oh ow i yo xo c in if Rlt_dec (mask k) 0 then 0 else if (a =? Z.of_nat (i * (in_h * in_w * n_channels)) + to_int (mask k))%Z then top_diff k else 0)))).
Proof.
  intros I. unfold gpu_maxpool_backward in I. cbv zeta in I. rewrite (launch_adds _ _ (Zle_0_nat _) l m 0%nat a I).
  - f_equal. rewrite Nat2Z.id. cbn [fst]. rewrite Rsum_nest, Rsum_nest, Rsum_nest. apply Rsum_ext; intros i Hi. apply Rsum_ext; intros yo Hyo. apply Rsum_ext; intros xo Hxo. apply Rsum_ext; intros c Hc. cbv zeta.
    fold (at4 oh ow i yo xo c). set (k := at4 oh ow i yo xo c). unfold max_bwd_body. destruct (Rlt_dec (mask k) 0); [reflexivity|]. cbv zeta. cbn [map lsum fold_right]. unfold contribution. cbn [cell]. unfold lsum. cbn [fold_right]. rewrite Rplus_0_r.
    unfold cell_eqb. cbn [fst snd Nat.eqb andb].
    replace (num * oh * ow * n_channels)%nat with (num * (oh * ow * n_channels))%nat by ring. replace (num * in_h * in_w * n_channels)%nat with (num * (in_h * in_w * n_channels))%nat by ring. rewrite !quot_size by lia.
    replace (Z.quot k (Z.of_nat (oh * ow * n_channels))) with (Z.of_nat i).
    2: { assert (L := ltL _ _ _ _ (ltL _ _ _ _ Hyo Hxo) Hc). unfold k, at4. replace (Z.of_nat (((i * oh + yo) * ow + xo) * n_channels + c)) with (Z.of_nat i * Z.of_nat (oh * ow * n_channels) + Z.of_nat ((yo * ow + xo) * n_channels + c))%Z by lia. rewrite quot_flat by lia. reflexivity. }
    now rewrite <- Nat2Z.inj_mul.
  - cbn [fst]. intros k w _ Hw b j v. unfold max_bwd_body in Hw. destruct (Rlt_dec (mask k) 0); [destruct Hw|]. destruct Hw as [<-|[]]. discriminate.
Qed.
Theorem C60_maxpool_backward : forall top_diff mask argmax l m, proper_mask mask argmax -> interleaving (g_max_bwd top_diff mask) l ->
  race_free (g_max_bwd top_diff mask) /\
  forall i y x c, (i < num)%nat -> (y < in_h)%nat -> (x < in_w)%nat -> (c < n_channels)%nat ->
    exec l m 0%nat (at4 in_h in_w i y x c) = max_bwd (argmax i) (out_at top_diff i) (image_at (m 0%nat) i) (Z.of_nat y) (Z.of_nat x) c.
Proof.
  intros d mask argmax l m PM I. split.
  - apply launch_atomic_race_free; [lia|]. cbn [fst]. intros k w _ Hw. unfold max_bwd_body in Hw. destruct (Rlt_dec (mask k) 0); [destruct Hw|]. destruct Hw as [<-|[]]. eexists _, _, _. reflexivity.
  - intros i y x c Hi Hy Hx Hc. rewrite (max_adds d mask l m _ I), max_backward_eq, at4_image by assumption. f_equal. rewrite (Rsum_single num i); [|assumption|].
    + apply Rsum_ext; intros yo Hyo. apply Rsum_ext; intros xo Hxo. rewrite (Rsum_single n_channels c); [|assumption|].
      * cbv zeta. destruct (PM i yo xo c Hi Hyo Hxo Hc) as [-> [E|(y' & x' & Hy' & Hx' & E)]].
        -- unfold routed. cbv zeta. rewrite E. cbn [negb Z.eqb Pos.eqb andb]. destruct (Rlt_dec (-1) 0); [reflexivity | lra].
        -- assert (NN := pos_nonneg in_w n_channels y' x' c ltac:(lia) ltac:(lia)). destruct (Rlt_dec (IZR (argmax i yo xo c)) 0) as [L|_]; [apply lt_IZR in L; lia|].
           rewrite to_int_IZR by lia. unfold routed. cbv zeta. rewrite E. destruct (pos_decode in_w n_channels y' x' c ltac:(lia) Hx' Hc) as [-> ->].
           destruct (Z.eqb_spec (pos y' x' c) (-1)); [lia|]. destruct (Z.leb_spec 0 y'), (Z.leb_spec 0 x'); try lia. cbn [negb andb]. unfold out_at.
           destruct (Z.eqb_spec (at4 in_h in_w i y x c) (Z.of_nat (i * (in_h * in_w * n_channels)) + pos y' x' c)) as [Q|Q]; destruct (Z.eqb_spec (Z.of_nat y) y'), (Z.eqb_spec (Z.of_nat x) x'); cbn [andb]; try reflexivity; exfalso.
           ++ unfold at4, PoolProps.pos in Q. assert (Z.of_nat y * Z.of_nat in_w + Z.of_nat x = y' * Z.of_nat in_w + x')%Z by nia. nia.
           ++ unfold at4, PoolProps.pos in Q. assert (Z.of_nat y * Z.of_nat in_w + Z.of_nat x = y' * Z.of_nat in_w + x')%Z by nia. nia.
           ++ unfold at4, PoolProps.pos in Q. assert (Z.of_nat y * Z.of_nat in_w + Z.of_nat x = y' * Z.of_nat in_w + x')%Z by nia. nia.
           ++ apply Q. subst y' x'. unfold at4, PoolProps.pos. lia.
      * intros c' Hc' N. cbv zeta. destruct (PM i yo xo c' Hi Hyo Hxo Hc') as [-> [E|(y' & x' & Hy' & Hx' & E)]].
        -- rewrite E. destruct (Rlt_dec (-1) 0); [reflexivity | lra].
        -- assert (NN := pos_nonneg in_w n_channels y' x' c' ltac:(lia) ltac:(lia)). destruct (Rlt_dec (IZR (argmax i yo xo c')) 0); [reflexivity|]. rewrite E, to_int_IZR by lia.
           match goal with |- (if (?a =? ?b)%Z then _ else _) = _ => destruct (Z.eqb_spec a b) as [Q|]; [|reflexivity] end. exfalso. apply N. unfold at4, PoolProps.pos in Q.
           assert (Q' : ((Z.of_nat (i * (in_h * in_w)) + (Z.of_nat y * Z.of_nat in_w + Z.of_nat x)) * Z.of_nat n_channels + Z.of_nat c = (Z.of_nat (i * (in_h * in_w)) + (y' * Z.of_nat in_w + x')) * Z.of_nat n_channels + Z.of_nat c')%Z) by lia.
           apply flat_inj in Q' as [_ Q']; lia.
    + intros i' Hi' N. apply Rsum_zero; intros yo Hyo. apply Rsum_zero; intros xo Hxo. apply Rsum_zero; intros c' Hc'. cbv zeta. destruct (PM i' yo xo c' Hi' Hyo Hxo Hc') as [-> [E|(y' & x' & Hy' & Hx' & E)]].
      * rewrite E. destruct (Rlt_dec (-1) 0); [reflexivity | lra].
      * assert (NN := pos_nonneg in_w n_channels y' x' c' ltac:(lia) ltac:(lia)). destruct (Rlt_dec (IZR (argmax i' yo xo c')) 0); [reflexivity|]. rewrite E, to_int_IZR by lia.
        match goal with |- (if (?a =? ?b)%Z then _ else _) = _ => destruct (Z.eqb_spec a b) as [Q|]; [|reflexivity] end. exfalso. apply N.
        assert (Q' : (Z.of_nat i * Z.of_nat (in_h * in_w * n_channels) + Z.of_nat ((y * in_w + x) * n_channels + c) = Z.of_nat i' * Z.of_nat (in_h * in_w * n_channels) + Z.of_nat ((Z.to_nat y' * in_w + Z.to_nat x') * n_channels + c'))%Z).
        { unfold at4, PoolProps.pos in Q. replace (Z.of_nat ((Z.to_nat y' * in_w + Z.to_nat x') * n_channels + c')) with ((y' * Z.of_nat in_w + x') * Z.of_nat n_channels + Z.of_nat c')%Z by (rewrite <- (Z2Nat.id y') at 1 by lia; rewrite <- (Z2Nat.id x') at 1 by lia; lia). lia. }
        assert (L1 := ltL _ _ _ _ (ltL _ _ _ _ Hy Hx) Hc). assert (L2 := ltL in_h in_w (Z.to_nat y') (Z.to_nat x') ltac:(lia) ltac:(lia)). assert (L3 := ltL _ _ _ _ L2 Hc').
        apply flat_inj in Q' as [Q' _]; lia.
Qed.
(** Forward and backward pass together, for images of at most 2^24 values (whose positions a
    float32 can hold) *)
Theorem C60_maxpool_partial : forall data top_diff l1 m1 l2 m2, (Z.of_nat (in_h * in_w * n_channels) <= 2 ^ 24)%Z ->
  interleaving (g_max_fwd data) l1 -> let mask := exec l1 m1 1%nat in interleaving (g_max_bwd top_diff mask) l2 ->
  forall i y x c, (i < num)%nat -> (y < in_h)%nat -> (x < in_w)%nat -> (c < n_channels)%nat ->
    exec l2 m2 0%nat (at4 in_h in_w i y x c)
    = max_bwd (fun yo xo c => snd (max_fwd 24 (- FLT_MAX) (image_at data i) yo xo c)) (out_at top_diff i) (image_at (m2 0%nat) i) (Z.of_nat y) (Z.of_nat x) c.
Proof.
  intros data d l1 m1 l2 m2 Hs I1 mask I2. destruct (C60_maxpool_forward data l1 m1 I1) as [_ F].
  apply (C60_maxpool_backward d mask (fun i yo xo c => snd (max_fwd 24 (- FLT_MAX) (image_at data i) yo xo c)) l2 m2); [|exact I2].
  intros i yo xo c Hi Hyo Hxo Hc. specialize (F i yo xo c Hi Hyo Hxo Hc). split.
  - destruct (max_fwd 24 (- FLT_MAX) (image_at data i) yo xo c) as [v z]. apply F.
  - cbv beta. rewrite argmax_exact by (try assumption; lia). destruct (scan_spec in_h in_w n_channels pool_h pool_w padding stride_y stride_x (- FLT_MAX) (image_at data i) yo xo c) as [[E _]|(y & x & G & E & _)]; rewrite E; [now left|].
    right. destruct G as [W _]. unfold in_window in W. cbv zeta in W. exists y, x. repeat split; try lia; reflexivity.
Qed.
End P.

(** A wide image with one row and two channels, 1 x 1 windows.  The position 2^24 + 1 of pixel
    2^23 in channel 1 is stored as 2^24: the CPU handler divides by the number of channels
    and finds the pixel, the GPU handler adds the delta to channel 0. *)
Lemma store_odd z : store_int 24 z <> (2 ^ 24 + 1)%Z.
Proof.
  unfold store_int. destruct (Z.ltb_spec (Z.abs z) (2 ^ 24)) as [L|L]; [lia|]. intros A.
  set (e := (Z.log2 (Z.abs z) - (24 - 1))%Z) in *. assert (He : (1 <= e)%Z).
  { unfold e. assert (Z.log2 (2 ^ 24) <= Z.log2 (Z.abs z))%Z by (apply Z.log2_le_mono; lia). rewrite Z.log2_pow2 in H by lia. lia. }
  assert (P : (2 ^ e = 2 * 2 ^ (e - 1))%Z) by (rewrite <- Z.pow_succ_r by lia; f_equal; lia). rewrite P in A.
  apply (f_equal Z.even) in A. rewrite !Z.even_mul in A. cbn in A. rewrite !orb_true_r in A. discriminate A.
Qed.
Theorem C60_maxpool_float32_refuted : forall FLT_MAX k data top_diff l1 m1 l2 m2, Z.of_nat k = (2 ^ 23)%Z -> let w := S k in
  (forall p, - FLT_MAX < data p) ->
  interleaving (gpu_maxpool_forward FLT_MAX 1 1 w 2 1 w 1 1 1 1 0 data) l1 -> interleaving (gpu_maxpool_backward 1 1 w 2 1 w top_diff (exec l1 m1 1%nat)) l2 ->
  exec l2 m2 0%nat (at4 2 1 w 0 0 k 1) = m2 0%nat (at4 2 1 w 0 0 k 1) /\
  maxpool_backward 1 w 2 1 1 0 1 1 (fun yo xo c => snd (maxpool_forward 1 w 2 1 1 0 1 1 24 (- FLT_MAX) (image_at 1 w 2 data 0) yo xo c)) (fun yo xo c => top_diff (at4 2 1 w 0 yo xo c)) (image_at 1 w 2 (m2 0%nat) 0) 0%Z (Z.of_nat k) 1%nat
  = m2 0%nat (at4 2 1 w 0 0 k 1) + top_diff (at4 2 1 w 0 0 k 1).
Proof.
  intros FM k data d l1 m1 l2 m2 Hk w Hlow I1 I2.
  assert (Eh : out_h 1 1 0 1 = 1%nat) by reflexivity. assert (Ew : out_w w 1 0 1 = w) by (unfold out_w, out_dim; change (Z.of_nat 1) with 1%Z; rewrite Z.div_1_r; lia).
  assert (F : forall xo c, (xo < w)%nat -> (c < 2)%nat -> snd (maxpool_forward 1 w 2 1 1 0 1 1 24 (- FM) (image_at 1 w 2 data 0) 0 xo c) = store_int 24 (Z.of_nat (2 * xo + c))).
  { intros xo c Hx Hc. unfold maxpool_forward. destruct (scan_spec 1 w 2 1 1 0 1 1 (- FM) (image_at 1 w 2 data 0) 0 xo c) as [[_ E]|(y & x & [G _] & E & _)].
    - exfalso. specialize (E 0%Z (Z.of_nat xo)). assert (W : in_window 1 w 1 1 0 1 1 0 xo 0 (Z.of_nat xo)) by (unfold in_window; cbv zeta; lia). specialize (E W). unfold image_at in E. specialize (Hlow (Z.of_nat (0 * (1 * w * 2)) + pos w 2 0 (Z.of_nat xo) c)%Z). lra.
    - rewrite E. cbn [snd]. f_equal. unfold in_window in G. cbv zeta in G. unfold pos. nia. }
  split.
  - assert (A := max_adds 1 1 w 2 1 1 0 1 1 d (exec l1 m1 1%nat) l2 m2 (at4 2 1 w 0 0 k 1)). rewrite Eh, Ew in A. rewrite (A I2). rewrite Rsum_zero; [lra|]. intros i Hi. apply Rsum_zero; intros yo Hyo. apply Rsum_zero; intros xo Hxo. apply Rsum_zero; intros c Hc. cbv zeta.
    assert (B := C60_maxpool_forward FM 1 1 w 2 1 1 0 1 1 data l1 m1). rewrite Eh, Ew in B. destruct (B I1) as [_ G]. specialize (G i yo xo c Hi Hyo Hxo Hc). assert (i = 0%nat) by lia. assert (yo = 0%nat) by lia. subst i yo. specialize (F xo c Hxo Hc).
    destruct (maxpool_forward 1 w 2 1 1 0 1 1 24 (- FM) (image_at 1 w 2 data 0) 0 xo c) as [v z]. cbn [snd] in F. destruct G as [_ ->]. destruct (Rlt_dec (IZR z) 0) as [L|L]; [reflexivity|].
    assert (0 <= z)%Z by (apply Z.nlt_ge; intros Q; apply L; now apply IZR_lt). rewrite to_int_IZR by assumption.
    destruct (Z.eqb_spec (at4 2 1 w 0 0 k 1) (Z.of_nat (0 * (1 * w * 2)) + z)) as [Q|]; [|reflexivity]. exfalso. apply (store_odd (Z.of_nat (2 * xo + c))). rewrite <- F. unfold at4 in Q. lia.
  - rewrite max_backward_eq by lia. rewrite Eh, Ew. f_equal; [unfold image_at, pos, at4; f_equal; lia|]. cbn [Rsum]. rewrite Rplus_0_l. rewrite (Rsum_single w k); [|unfold w; lia|].
    + unfold routed. cbv beta zeta. rewrite F by (unfold w; lia). replace (Z.of_nat (2 * k + 1)) with (2 ^ 24 + 1)%Z by lia. change (store_int 24 (2 ^ 24 + 1)) with (2 ^ 24)%Z.
      change (2 ^ 24 / Z.of_nat 2)%Z with (2 ^ 23)%Z. rewrite <- Hk. rewrite Z.div_small, Z.mod_small by (unfold w; lia).
      destruct (Z.eqb_spec (2 ^ 24) (-1)); [lia|]. destruct (Z.leb_spec 0 (Z.of_nat k)); [|lia]. rewrite !Z.eqb_refl. reflexivity.
    + intros xo Hxo N. unfold routed. cbv beta zeta. rewrite F by lia. assert (xo < k)%nat by (unfold w in Hxo; lia). rewrite store_exact by lia.
      replace (Z.of_nat (2 * xo + 1)) with (Z.of_nat xo * Z.of_nat 2 + 1)%Z by lia. replace ((Z.of_nat xo * Z.of_nat 2 + 1) / Z.of_nat 2)%Z with (Z.of_nat xo) by (apply (Z.div_unique _ _ _ 1); lia).
      rewrite (Z.mod_small (Z.of_nat xo)) by lia. destruct (Z.eqb_spec (Z.of_nat k) (Z.of_nat xo)); [lia|]. now rewrite !andb_false_r.
Qed.
Print Assumptions C60_maxpool_forward.
Print Assumptions C60_maxpool_backward.
Print Assumptions C60_maxpool_partial.
Print Assumptions C60_avgpool_forward.
Print Assumptions C60_avgpool_backward.
Print Assumptions C60_maxpool_float32_refuted.

(** Executions exist; their results on the images of C45_case and C46_case. *)
Example C60_conv_case :
  let image := fun k => IZR (k + 1) in
  let W : mat := fun _ q => nth q [1; 10; 100; 1000] 0 in
  exists out result, gpu_conv_forward 2 3 1 2 2 1 1 2 Linear W (fun _ => 7) image out /\ out 3%nat O = 2 + 30 + 500 + 6000 + 7 /\
  gpu_conv_backward 2 3 1 2 2 1 1 2 Linear 1 1 W (fun _ => image) (fun _ => out) (fun _ r _ => nth r [1; 0; 0; 2; 0; 3] 0) (fun _ _ => 5) result /\
  let '(din, dW, db, _) := result in din O 0%Z = 1005 /\ din O 5%Z = 2000 + 30 + 5 /\ dW O 3%nat = 1 + 2 * 6 /\ db O = 6.
Proof.
  intros image W. destruct (interleaving_exists (gpu_im2col 2 3 1 2 2 1 1 2 3 2 image)) as (l & I).
  assert (G : exists out, gpu_conv_forward 2 3 1 2 2 1 1 2 Linear W (fun _ => 7) image out) by (eexists; exact (conv_fwd_done 2 3 1 2 2 1 1 2 Linear W (fun _ => 7) image l I)). destruct G as (out & G).
  set (dout := fun (_ r _ : nat) => nth r [1; 0; 0; 2; 0; 3] 0).
  assert (B : exists result, gpu_conv_backward 2 3 1 2 2 1 1 2 Linear 1 1 W (fun _ => image) (fun _ => out) dout (fun _ _ => 5) result).
  { unfold gpu_conv_backward. edestruct interleaving_exists as (l2 & I2). eexists. eapply images_next; [apply images_none|]. eapply conv_bwd_step; [exact I | exact I2]. }
  destruct B as (res & B). exists out, res. split; [exact G|]. split.
  { rewrite (C60_conv_forward 2 3 1 2 2 1 1 2 _ _ _ _ _ G) by (cbv; lia). cbv -[Rplus Rmult Ropp IZR Rminus]. cbn. lra. }
  split; [exact B|]. assert (E := C60_conv_backward 2 3 1 2 2 1 1 2 _ _ _ _ _ _ _ _ _ ltac:(lia) ltac:(lia) B). destruct res as (((din, dW), db), col).
  destruct (conv_backward 2 3 1 2 2 1 1 2 Linear 1 1 W (fun _ k => image (Z.of_nat k)) (fun _ => out) dout (fun _ _ => 5)) as ((din', dW'), db') eqn:Q. destruct E as (E1 & E2 & E3).
  change 0%Z with (Z.of_nat 0). change 5%Z with (Z.of_nat 5). rewrite !E1, E2, E3 by (cbv; lia). unfold conv_backward in Q. injection Q as <- <- <-.
  cbv -[Rplus Rmult Ropp IZR Rminus]. repeat split; cbn; lra.
Qed.
Example C60_pool_case :
  let image := fun k => nth (Z.to_nat k) [1; 5; 2; 8; 3; 3; 0; 9; 9] 0 in
  let dout := fun k => nth (Z.to_nat k) [1; 10; 100; 1000] 0 in
  let mask := fun k => IZR (nth (Z.to_nat k) [0; 1; 3; 7]%Z 0%Z) in
  exists l1 l2 l3 l4, interleaving (gpu_maxpool_forward 1000 1 3 3 1 2 2 2 2 2 2 1 image) l1 /\
    interleaving (gpu_maxpool_backward 1 3 3 1 2 2 dout mask) l2 /\
    interleaving (gpu_avgpool_forward 1 3 3 1 2 2 2 2 2 2 1 image) l3 /\ interleaving (gpu_avgpool_backward 1 3 3 1 2 2 2 2 2 2 1 dout) l4 /\
    exec l3 (fun _ _ => 0) 0%nat 3%Z = 6 /\ exec l4 (fun _ _ => 7) 0%nat 4%Z = 257 /\ exec l2 (fun _ _ => 7) 0%nat 3%Z = 107 /\ exec l1 (fun _ _ => 0) 0%nat 0%Z = 1.
Proof.
  intros image dout mask. destruct (interleaving_exists (gpu_maxpool_forward 1000 1 3 3 1 2 2 2 2 2 2 1 image)) as (l1 & I1).
  destruct (interleaving_exists (gpu_maxpool_backward 1 3 3 1 2 2 dout mask)) as (l2 & I2).
  destruct (interleaving_exists (gpu_avgpool_forward 1 3 3 1 2 2 2 2 2 2 1 image)) as (l3 & I3). destruct (interleaving_exists (gpu_avgpool_backward 1 3 3 1 2 2 2 2 2 2 1 dout)) as (l4 & I4).
  exists l1, l2, l3, l4. do 4 (split; [assumption|]). split; [|split; [|split]].
  - destruct (C60_avgpool_forward 1 3 3 1 2 2 1 2 2 image l3 (fun _ _ => 0) I3) as [_ E]. specialize (E 0 1 1 0)%nat. change (at4 1 (out_h 3 2 1 2) (out_w 3 2 1 2) 0 1 1 0) with 3%Z in E. rewrite E by (cbv; lia). calc.
  - destruct (C60_avgpool_backward 1 3 3 1 2 2 1 2 2 dout l4 (fun _ _ => 7) ltac:(lia) ltac:(lia) I4) as [_ E]. specialize (E 0 1 1 0)%nat. change (at4 1 3 3 0 1 1 0) with 4%Z in E. rewrite E by (cbv; lia). calc.
  - destruct (C60_maxpool_backward 1 3 3 1 2 2 1 2 2 dout mask (fun _ yo xo _ => nth (yo * 2 + xo) [0; 1; 3; 7]%Z 0%Z) l2 (fun _ _ => 7)) as [_ E]; [|exact I2|].
    + intros i yo xo c Hi Hy Hx Hc. change (out_h 3 2 1 2) with 2%nat in *. change (out_w 3 2 1 2) with 2%nat in *. assert (i = 0%nat) by lia. assert (c = 0%nat) by lia. subst i c.
      assert (Hx' : xo = 0%nat \/ xo = 1%nat) by lia. assert (Hy' : yo = 0%nat \/ yo = 1%nat) by lia. destruct Hx' as [-> | ->], Hy' as [-> | ->]; (split; [reflexivity|]); right;
        [exists 0%Z, 0%Z | exists 1%Z, 0%Z | exists 0%Z, 1%Z | exists 2%Z, 1%Z]; repeat split; try lia; reflexivity.
    + specialize (E 0 1 0 0)%nat. change (at4 1 3 3 0 1 0 0) with 3%Z in E. rewrite E by lia. rewrite max_backward_eq by lia. calc.
  - destruct (C60_maxpool_forward 1000 1 3 3 1 2 2 1 2 2 image l1 (fun _ _ => 0) I1) as [_ E]. specialize (E 0 0 0 0 ltac:(lia) ltac:(cbv; lia) ltac:(cbv; lia) ltac:(lia))%nat.
    destruct (C46_max_forward 3 3 1 2 2 1 2 2 24 (- (1000)) (image_at 3 3 1 image 0) 0 0 0) as (y & x & W & V & _); [exists 0%Z, 0%Z; split; [unfold in_window; lia | calc]|].
    destruct (maxpool_forward 3 3 1 2 2 1 2 2 24 (- (1000)) (image_at 3 3 1 image 0) 0 0 0) as [v z]. change (at4 1 (out_h 3 2 1 2) (out_w 3 2 1 2) 0 0 0 0) with 0%Z in E. destruct E as [-> _]. cbn [fst] in V. rewrite V.
    unfold in_window in W. cbn zeta in W. assert (y = 0%Z) by lia. assert (x = 0%Z) by lia. subst. reflexivity.
Qed.
(** the wide image of C60_maxpool_float32_refuted: such executions exist *)
Example C60_float32_case : forall k, Z.of_nat k = (2 ^ 23)%Z -> let w := S k in exists l1 l2,
  interleaving (gpu_maxpool_forward 1000 1 1 w 2 1 w 1 1 1 1 0 (fun _ => 0)) l1 /\ interleaving (gpu_maxpool_backward 1 1 w 2 1 w (fun _ => 5) (exec l1 (fun _ _ => 0) 1%nat)) l2 /\
  exec l2 (fun _ _ => 0) 0%nat (at4 2 1 w 0 0 k 1) = 0 /\
  maxpool_backward 1 w 2 1 1 0 1 1 (fun yo xo c => snd (maxpool_forward 1 w 2 1 1 0 1 1 24 (- (1000)) (image_at 1 w 2 (fun _ => 0) 0) yo xo c)) (fun _ _ _ => 5) (fun _ _ _ => 0) 0%Z (Z.of_nat k) 1%nat = 5.
Proof.
  intros k Hk w. destruct (interleaving_exists (gpu_maxpool_forward 1000 1 1 w 2 1 w 1 1 1 1 0 (fun _ => 0))) as (l1 & I1).
  destruct (interleaving_exists (gpu_maxpool_backward 1 1 w 2 1 w (fun _ => 5) (exec l1 (fun _ _ => 0) 1%nat))) as (l2 & I2). exists l1, l2. split; [exact I1|]. split; [exact I2|].
  destruct (C60_maxpool_float32_refuted 1000 k (fun _ => 0) (fun _ => 5) l1 (fun _ _ => 0) l2 (fun _ _ => 0) Hk ltac:(intros; lra) I1 I2) as [A B]. split; [exact A|].
  etransitivity; [exact B | lra].
Qed.
