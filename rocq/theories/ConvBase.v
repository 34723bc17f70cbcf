(** Index arithmetic of im2col and col2im. *)
From Coq Require Import Reals Lra Lia ZArith Arith List Bool FunctionalExtensionality.
From Verif Require Import NumBase NumpyModel LayersProps RecurrentBase ConvModel.
Import ListNotations.
Open Scope R_scope.

Lemma loop_ext {S} n (f g : nat -> S -> S) s : (forall i t, (i < n)%nat -> f i t = g i t) -> loop n f s = loop n g s.
Proof. revert s. induction n as [|n IH]; intros s H; cbn; [reflexivity|]. rewrite IH by (intros; apply H; lia). apply H. lia. Qed.

Lemma set_block_zero m a f : set_block m a 0 f = m.
Proof. apply functional_extensionality; intros k. unfold set_block. destruct (Nat.leb_spec a k), (Nat.ltb_spec k (a + 0)); cbn; auto; lia. Qed.
Lemma set_block_app m a n L f g : set_block (set_block m a n f) (a + n) L g = set_block m a (n + L) (fun q => if (q <? n)%nat then f q else g (q - n)%nat).
Proof.
  apply functional_extensionality; intros k. unfold set_block.
  destruct (Nat.leb_spec (a + n) k), (Nat.ltb_spec k (a + n + L)), (Nat.leb_spec a k), (Nat.ltb_spec k (a + n)), (Nat.ltb_spec k (a + (n + L))), (Nat.ltb_spec (k - a) n);
    cbn; try lia; auto. f_equal. lia.
Qed.
Lemma set_block_ext m a n f g : (forall q, (q < n)%nat -> f q = g q) -> set_block m a n f = set_block m a n g.
Proof.
  intros H. apply functional_extensionality; intros k. unfold set_block. destruct (Nat.leb_spec a k), (Nat.ltb_spec k (a + n)); cbn; auto. apply H. lia.
Qed.
Lemma set_block_if (b : bool) m a n f g : (if b then set_block m a n f else set_block m a n g) = set_block m a n (fun c => if b then f c else g c).
Proof. now destruct b. Qed.

(** A loop whose body appends a block of [L] values and advances a counter. *)
Lemma loop_blocks n L s (g : nat -> Z -> nat -> R) (body : nat -> (nat -> R) * nat * Z -> (nat -> R) * nat * Z) m a p :
  (forall i m a p, body i (m, a, p) = (set_block m a L (g i p), (a + L)%nat, (p + s)%Z)) ->
  loop n body (m, a, p)
  = (set_block m a (n * L) (fun q => g (q / L)%nat (p + Z.of_nat (q / L) * s)%Z (q mod L)%nat), (a + n * L)%nat, (p + Z.of_nat n * s)%Z).
Proof.
  intros H. induction n as [|n IH].
  - cbn [loop]. f_equal; [f_equal|lia]; [|lia]. symmetry. apply set_block_zero.
  - cbn [loop]. rewrite IH, H, set_block_app. f_equal; [f_equal|lia]; [|lia].
    replace (S n * L)%nat with (n * L + L)%nat by lia. apply set_block_ext. intros q Hq. destruct (Nat.ltb_spec q (n * L)) as [Lq|Lq]; [reflexivity|].
    assert (Q : (q / L = n)%nat) by (symmetry; apply (Nat.div_unique q L n (q - n * L)); lia).
    assert (M : (q mod L = q - n * L)%nat) by (symmetry; apply (Nat.mod_unique q L n (q - n * L)); lia).
    now rewrite Q, M.
Qed.
Lemma loop_blocks2 n L (g : nat -> nat -> R) (body : nat -> (nat -> R) * nat -> (nat -> R) * nat) m a :
  (forall i m a, body i (m, a) = (set_block m a L (g i), (a + L)%nat)) ->
  loop n body (m, a) = (set_block m a (n * L) (fun q => g (q / L)%nat (q mod L)%nat), (a + n * L)%nat).
Proof.
  intros H. induction n as [|n IH].
  - cbn [loop]. f_equal; [|lia]. symmetry. apply set_block_zero.
  - cbn [loop]. rewrite IH, H, set_block_app. f_equal; [|lia].
    replace (S n * L)%nat with (n * L + L)%nat by lia. apply set_block_ext. intros q Hq. destruct (Nat.ltb_spec q (n * L)) as [Lq|Lq]; [reflexivity|].
    assert (Q : (q / L = n)%nat) by (symmetry; apply (Nat.div_unique q L n (q - n * L)); lia).
    assert (M : (q mod L = q - n * L)%nat) by (symmetry; apply (Nat.mod_unique q L n (q - n * L)); lia).
    now rewrite Q, M.
Qed.
(** A loop whose body adds something to the array and advances two counters. *)
Lemma loop_acc n A P (d : nat -> nat -> Z -> Z -> R) (body : nat -> (Z -> R) * nat * Z -> (Z -> R) * nat * Z) m a p :
  (forall i m a p, body i (m, a, p) = ((fun k => m k + d i a p k), (a + A)%nat, (p + P)%Z)) ->
  loop n body (m, a, p) = ((fun k => m k + Rsum n (fun i => d i (a + i * A)%nat (p + Z.of_nat i * P)%Z k)), (a + n * A)%nat, (p + Z.of_nat n * P)%Z).
Proof.
  intros H. induction n as [|n IH].
  - cbn [loop Rsum]. f_equal; [f_equal|lia]; [|lia]. apply functional_extensionality; intros k. lra.
  - cbn [loop Rsum]. rewrite IH, H. f_equal; [f_equal|lia]; [|lia]. apply functional_extensionality; intros k. lra.
Qed.
Lemma loop_add n (d : nat -> Z -> R) (body : nat -> (Z -> R) -> Z -> R) m :
  (forall i m, body i m = fun k => m k + d i k) -> loop n body m = fun k => m k + Rsum n (fun i => d i k).
Proof.
  intros H. induction n as [|n IH]; cbn [loop Rsum]; [apply functional_extensionality; intros k; lra|]. rewrite IH, H. apply functional_extensionality; intros k. lra.
Qed.

Lemma divL i L q : (q < L)%nat -> ((i * L + q) / L = i)%nat.
Proof. intros H. symmetry. apply (Nat.div_unique _ L i q); lia. Qed.
Lemma modL i L q : (q < L)%nat -> ((i * L + q) mod L = q)%nat.
Proof. intros H. symmetry. apply (Nat.mod_unique _ L i q); lia. Qed.
Lemma ltL n L i q : (i < n -> q < L -> i * L + q < n * L)%nat.
Proof. intros Hi Hq. assert (S i * L <= n * L)%nat by (apply Nat.mul_le_mono_r; lia). lia. Qed.
(** sums over a flat index *)
Lemma Rsum_nest n L f : Rsum (n * L) f = Rsum n (fun i => Rsum L (fun q => f (i * L + q)%nat)).
Proof.
  rewrite <- (Rsum_flat n L (fun i q => f (i * L + q)%nat)). apply Rsum_ext. intros k Hk. f_equal.
  assert (L <> 0)%nat by (destruct L; lia). assert (E := Nat.div_mod k L ltac:(assumption)). lia.
Qed.

(** The image with zeros outside of it *)
Definition padded (height width channels : nat) (image : nat -> R) (y x : Z) (c : nat) : R :=
  if ((0 <=? y) && (y <? Z.of_nat height) && (0 <=? x) && (x <? Z.of_nat width))%Z%bool
  then image (Z.to_nat (y * Z.of_nat width + x) * channels + c)%nat else 0.

Section I.
Variables (height width channels : nat) (kernel_h kernel_w padding stride_h stride_w : nat).
Notation HC := (height_col height kernel_h padding stride_h).
Notation WC := (width_col width kernel_w padding stride_w).
Notation pad := (padded height width channels).
Notation K := (num_kernel_params channels kernel_h kernel_w).
Notation i2c := (im2col height width channels kernel_h kernel_w padding stride_h stride_w).
Notation c2i := (col2im height width channels kernel_h kernel_w padding stride_h stride_w).
(** the position of (window row, window column, kernel row, kernel column, channel) *)
Definition col_pos (h w i j c : nat) : nat := (h * (WC * (kernel_h * (kernel_w * channels))) + (w * (kernel_h * (kernel_w * channels)) + (i * (kernel_w * channels) + (j * channels + c))))%nat.

Lemma im2col_blocks image m :
  i2c image m = set_block m 0 (HC * (WC * (kernel_h * (kernel_w * channels)))) (fun q =>
    let h := (q / (WC * (kernel_h * (kernel_w * channels))))%nat in let q := (q mod (WC * (kernel_h * (kernel_w * channels))))%nat in
    let w := (q / (kernel_h * (kernel_w * channels)))%nat in let q := (q mod (kernel_h * (kernel_w * channels)))%nat in
    let i := (q / (kernel_w * channels))%nat in let q := (q mod (kernel_w * channels))%nat in
    let j := (q / channels)%nat in let c := (q mod channels)%nat in
    pad image (- Z.of_nat padding + Z.of_nat h * Z.of_nat stride_h + Z.of_nat i)%Z (- Z.of_nat padding + Z.of_nat w * Z.of_nat stride_w + Z.of_nat j)%Z c).
Proof.
  unfold im2col. set (gj := fun (ih w_pad : Z) (j c : nat) => pad image ih (w_pad + Z.of_nat j)%Z c).
  set (gi := fun (h_pad w_pad : Z) (i q : nat) => gj (h_pad + Z.of_nat i)%Z w_pad (q / channels)%nat (q mod channels)%nat).
  set (gw := fun (h_pad : Z) (w : nat) (w_pad : Z) (q : nat) => gi h_pad w_pad (q / (kernel_w * channels))%nat (q mod (kernel_w * channels))%nat).
  set (gh := fun (h : nat) (h_pad : Z) (q : nat) => gw h_pad (q / (kernel_h * (kernel_w * channels)))%nat (- Z.of_nat padding + Z.of_nat (q / (kernel_h * (kernel_w * channels))) * Z.of_nat stride_w)%Z (q mod (kernel_h * (kernel_w * channels)))%nat).
  rewrite (loop_blocks HC (WC * (kernel_h * (kernel_w * channels))) (Z.of_nat stride_h) gh).
  { apply set_block_ext. intros q Hq. reflexivity. }
  intros h m1 a1 h_pad. cbn zeta iota beta.
  rewrite (loop_blocks WC (kernel_h * (kernel_w * channels)) (Z.of_nat stride_w) (gw h_pad)); [reflexivity|].
  intros w m2 a2 w_pad. cbn zeta iota beta.
  rewrite (loop_blocks2 kernel_h (kernel_w * channels) (gi h_pad w_pad)); [reflexivity|].
  intros i m3 a3. cbn zeta iota beta. rewrite (loop_blocks2 kernel_w channels (gj (h_pad + Z.of_nat i)%Z w_pad)); [reflexivity|].
  intros j m4 a4. cbn zeta iota beta. f_equal. rewrite set_block_if. apply set_block_ext. intros c Hc. unfold gj, padded. unfold in_image.
  set (b := ((0 <=? h_pad + Z.of_nat i) && (h_pad + Z.of_nat i <? Z.of_nat height) && (0 <=? w_pad + Z.of_nat j) && (w_pad + Z.of_nat j <? Z.of_nat width))%Z%bool).
  destruct b eqn:Eb; [|reflexivity]. f_equal. f_equal. subst b. rewrite !andb_true_iff in Eb. destruct Eb as [[[A1 A2] A3] A4].
  apply Z.leb_le in A1, A3. apply Z.ltb_lt in A2, A4. rewrite Z2Nat.inj_mul by nia. now rewrite Nat2Z.id.
Qed.
Lemma im2col_at image m h w i j c : (h < HC)%nat -> (w < WC)%nat -> (i < kernel_h)%nat -> (j < kernel_w)%nat -> (c < channels)%nat ->
  i2c image m (col_pos h w i j c)
  = pad image (- Z.of_nat padding + Z.of_nat h * Z.of_nat stride_h + Z.of_nat i)%Z (- Z.of_nat padding + Z.of_nat w * Z.of_nat stride_w + Z.of_nat j)%Z c.
Proof.
  intros Hh Hw Hi Hj Hc. rewrite im2col_blocks. unfold set_block, col_pos. cbn zeta.
  assert (L1 := ltL kernel_w channels j c Hj Hc). assert (L2 := ltL kernel_h _ i _ Hi L1). assert (L3 := ltL WC _ w _ Hw L2). assert (L4 := ltL HC _ h _ Hh L3).
  match goal with |- (if ?b then _ else _) = _ => replace b with true end.
  2: { symmetry. apply andb_true_iff. split; [apply Nat.leb_le; lia | apply Nat.ltb_lt; lia]. }
  rewrite Nat.sub_0_r. now rewrite (divL h _ _ L3), (modL h _ _ L3), (divL w _ _ L2), (modL w _ _ L2), (divL i _ _ L1), (modL i _ _ L1), (divL j _ _ Hc), (modL j _ _ Hc).
Qed.

Lemma col2im_at col z k :
  c2i col z k = z k + Rsum HC (fun h => Rsum WC (fun w => Rsum kernel_h (fun i => Rsum kernel_w (fun j =>
    let y := (- Z.of_nat padding + Z.of_nat h * Z.of_nat stride_h + Z.of_nat i)%Z in let x := (- Z.of_nat padding + Z.of_nat w * Z.of_nat stride_w + Z.of_nat j)%Z in
    if in_image height width y x then Rsum channels (fun c => if (k =? (y * Z.of_nat width + x) * Z.of_nat channels + Z.of_nat c)%Z then col (col_pos h w i j c) else 0) else 0)))).
Proof.
  unfold col2im.
  set (dj := fun (ih w_pad : Z) (j a : nat) (p k : Z) => if in_image height width ih (w_pad + Z.of_nat j) then Rsum channels (fun c => if (k =? p + Z.of_nat c)%Z then col (a + c)%nat else 0) else 0).
  set (di := fun (h_pad w_pad : Z) (i a : nat) (p k : Z) => Rsum kernel_w (fun j => dj (h_pad + Z.of_nat i)%Z w_pad j (a + j * channels)%nat (p + Z.of_nat j * Z.of_nat channels)%Z k)).
  set (dw := fun (h_pad : Z) (w a : nat) (w_pad k : Z) => Rsum kernel_h (fun i => di h_pad w_pad i (a + i * (kernel_w * channels))%nat ((h_pad * Z.of_nat width + w_pad) * Z.of_nat channels + Z.of_nat i * (Z.of_nat channels * Z.of_nat width))%Z k)).
  set (dh := fun (h a : nat) (h_pad k : Z) => Rsum WC (fun w => dw h_pad w (a + w * (kernel_h * (kernel_w * channels)))%nat (- Z.of_nat padding + Z.of_nat w * Z.of_nat stride_w)%Z k)).
  rewrite (loop_acc HC (WC * (kernel_h * (kernel_w * channels))) (Z.of_nat stride_h) dh).
  - f_equal. unfold dh, dw, di, dj. apply Rsum_ext; intros h Hh. apply Rsum_ext; intros w Hw. apply Rsum_ext; intros i Hi. apply Rsum_ext; intros j Hj. cbn zeta.
    destruct (in_image _ _ _ _); [|reflexivity]. apply Rsum_ext; intros c Hc. unfold col_pos.
    match goal with |- (if (k =? ?a)%Z then col ?u else 0) = (if (k =? ?b)%Z then col ?v else 0) => replace a with b by ring; replace u with v by lia end. reflexivity.
  - intros h m1 a1 h_pad. cbn zeta iota beta. rewrite (loop_acc WC (kernel_h * (kernel_w * channels)) (Z.of_nat stride_w) (dw h_pad)); [reflexivity|].
    intros w m2 a2 w_pad. cbn zeta iota beta. rewrite (loop_acc kernel_h (kernel_w * channels) (Z.of_nat channels * Z.of_nat width) (di h_pad w_pad)); [reflexivity|].
    intros i m3 a3 p3. cbn zeta iota beta. rewrite (loop_acc kernel_w channels (Z.of_nat channels) (dj (h_pad + Z.of_nat i)%Z w_pad)); [f_equal; ring|].
    intros j m4 a4 p4. cbn zeta iota beta. f_equal. f_equal. unfold dj. destruct (in_image _ _ _ _).
    + apply (loop_add channels (fun c k => if (k =? p4 + Z.of_nat c)%Z then col (a4 + c)%nat else 0)). intros c m5. apply functional_extensionality; intros k5. destruct (_ =? _)%Z; lra.
    + apply functional_extensionality; intros k5. lra.
Qed.

(** col2im is the adjoint of im2col *)
Lemma col2im_adjoint col z v :
  Rsum (height * width * channels) (fun k => (c2i col z (Z.of_nat k) - z (Z.of_nat k)) * v k)
  = Rsum (HC * WC) (fun r => Rsum K (fun q => col (r * K + q)%nat * i2c v (fun _ => 0) (r * K + q)%nat)).
Proof.
  set (Y := fun h i => (- Z.of_nat padding + Z.of_nat h * Z.of_nat stride_h + Z.of_nat i)%Z). set (X := fun w j => (- Z.of_nat padding + Z.of_nat w * Z.of_nat stride_w + Z.of_nat j)%Z).
  transitivity (Rsum HC (fun h => Rsum WC (fun w => Rsum kernel_h (fun i => Rsum kernel_w (fun j => Rsum channels (fun c => col (col_pos h w i j c) * pad v (Y h i) (X w j) c)))))).
  - transitivity (Rsum (height * width * channels) (fun k => Rsum HC (fun h => Rsum WC (fun w => Rsum kernel_h (fun i => Rsum kernel_w (fun j => Rsum channels (fun c =>
      if in_image height width (Y h i) (X w j) then (if (Z.of_nat k =? (Y h i * Z.of_nat width + X w j) * Z.of_nat channels + Z.of_nat c)%Z then col (col_pos h w i j c) * v k else 0) else 0))))))).
    { apply Rsum_ext; intros k Hk. rewrite col2im_at. rewrite Rplus_comm. unfold Rminus. rewrite Rplus_assoc, Rplus_opp_r, Rplus_0_r.
      rewrite <- Rsum_scal_r. apply Rsum_ext; intros h Hh. rewrite <- Rsum_scal_r. apply Rsum_ext; intros w Hw. rewrite <- Rsum_scal_r. apply Rsum_ext; intros i Hi. rewrite <- Rsum_scal_r. apply Rsum_ext; intros j Hj.
      cbn zeta. fold (Y h i) (X w j). destruct (in_image _ _ _ _).
      - rewrite <- Rsum_scal_r. apply Rsum_ext; intros c Hc. destruct (_ =? _)%Z; lra.
      - rewrite Rmult_0_l. symmetry. now apply Rsum_zero. }
    rewrite Rsum_swap. apply Rsum_ext; intros h Hh. rewrite Rsum_swap. apply Rsum_ext; intros w Hw. rewrite Rsum_swap. apply Rsum_ext; intros i Hi. rewrite Rsum_swap. apply Rsum_ext; intros j Hj. rewrite Rsum_swap. apply Rsum_ext; intros c Hc.
    unfold padded. unfold in_image. destruct (((0 <=? Y h i) && (Y h i <? Z.of_nat height) && (0 <=? X w j) && (X w j <? Z.of_nat width))%Z%bool) eqn:Eb.
    2: { rewrite Rsum_zero by reflexivity. lra. }
    rewrite !andb_true_iff in Eb. destruct Eb as [[[A1 A2] A3] A4]. apply Z.leb_le in A1, A3. apply Z.ltb_lt in A2, A4.
    set (k0 := (Z.to_nat (Y h i * Z.of_nat width + X w j) * channels + c)%nat).
    assert (E0 : Z.of_nat k0 = ((Y h i * Z.of_nat width + X w j) * Z.of_nat channels + Z.of_nat c)%Z).
    { unfold k0. rewrite Nat2Z.inj_add, Nat2Z.inj_mul, Z2Nat.id by nia. reflexivity. }
    assert (L0 : (k0 < height * width * channels)%nat).
    { unfold k0. apply ltL; [|assumption]. apply Nat2Z.inj_lt. rewrite Z2Nat.id by nia. rewrite Nat2Z.inj_mul. nia. }
    rewrite (Rsum_single _ k0 _ L0).
    + rewrite E0, Z.eqb_refl. reflexivity.
    + intros k Hk Nk. destruct (Z.eqb_spec (Z.of_nat k) ((Y h i * Z.of_nat width + X w j) * Z.of_nat channels + Z.of_nat c)); [|reflexivity]. exfalso. apply Nk. apply Nat2Z.inj. congruence.
  - rewrite Rsum_nest. apply Rsum_ext; intros h Hh. apply Rsum_ext; intros w Hw. unfold num_kernel_params. rewrite <- Nat.mul_assoc. rewrite Rsum_nest. apply Rsum_ext; intros i Hi. rewrite Rsum_nest. apply Rsum_ext; intros j Hj. apply Rsum_ext; intros c Hc.
    replace ((h * WC + w) * (kernel_h * (kernel_w * channels)) + (i * (kernel_w * channels) + (j * channels + c)))%nat with (col_pos h w i j c) by (unfold col_pos; ring).
    rewrite im2col_at by assumption. reflexivity.
Qed.
(** im2col overwrites all that is read afterwards *)
Lemma im2col_overwrites image m m' k : (k < HC * WC * K)%nat -> i2c image m k = i2c image m' k.
Proof.
  intros Hk. rewrite !im2col_blocks. unfold set_block. unfold num_kernel_params in Hk.
  replace ((0 <=? k)%nat && (k <? 0 + HC * (WC * (kernel_h * (kernel_w * channels))))%nat)%bool with true; [reflexivity|].
  symmetry. apply andb_true_iff. split; [reflexivity|]. apply Nat.ltb_lt. replace (HC * (WC * (kernel_h * (kernel_w * channels))))%nat with (HC * WC * (kernel_h * kernel_w * channels))%nat by ring. exact Hk.
Qed.
Lemma D_im2col s0 (x : R -> nat -> R) x' r q : (forall k, (k < height * width * channels)%nat -> D s0 (fun s => x s k) (x' k)) ->
  (r < HC * WC)%nat -> (q < K)%nat -> D s0 (fun s => i2c (x s) (fun _ => 0) (r * K + q)%nat) (i2c x' (fun _ => 0) (r * K + q)%nat).
Proof.
  intros Hx Hr Hq. unfold num_kernel_params in *.
  assert (WC <> 0)%nat by (intros E; rewrite E in Hr; lia). assert (kernel_w * channels <> 0 /\ channels <> 0)%nat by (split; intros E; [rewrite <- Nat.mul_assoc, E in Hq | rewrite E in Hq]; lia).
  set (h := (r / WC)%nat). set (w := (r mod WC)%nat). set (i := (q / (kernel_w * channels))%nat). set (q1 := (q mod (kernel_w * channels))%nat). set (j := (q1 / channels)%nat). set (c := (q1 mod channels)%nat).
  assert (Er : r = (h * WC + w)%nat) by (unfold h, w; assert (E := Nat.div_mod r WC ltac:(assumption)); lia).
  assert (Eq : q = (i * (kernel_w * channels) + q1)%nat) by (unfold i, q1; assert (E := Nat.div_mod q (kernel_w * channels) ltac:(tauto)); lia).
  assert (Eq1 : q1 = (j * channels + c)%nat) by (unfold j, c; assert (E := Nat.div_mod q1 channels ltac:(tauto)); lia).
  assert (Hw : (w < WC)%nat) by (apply Nat.mod_upper_bound; assumption). assert (Hc : (c < channels)%nat) by (apply Nat.mod_upper_bound; tauto). assert (Hq1 : (q1 < kernel_w * channels)%nat) by (apply Nat.mod_upper_bound; tauto).
  assert (Hh : (h < HC)%nat) by (apply Nat.div_lt_upper_bound; [assumption | lia]). assert (Hi : (i < kernel_h)%nat) by (apply Nat.div_lt_upper_bound; [tauto | lia]). assert (Hj : (j < kernel_w)%nat) by (apply Nat.div_lt_upper_bound; [tauto | lia]).
  replace (r * (kernel_h * kernel_w * channels) + q)%nat with (col_pos h w i j c) by (rewrite Er, Eq, Eq1; unfold col_pos; ring).
  rewrite (im2col_at x') by assumption. apply (D_ext s0 (fun s => pad (x s) (- Z.of_nat padding + Z.of_nat h * Z.of_nat stride_h + Z.of_nat i)%Z (- Z.of_nat padding + Z.of_nat w * Z.of_nat stride_w + Z.of_nat j)%Z c) _ (pad x' (- Z.of_nat padding + Z.of_nat h * Z.of_nat stride_h + Z.of_nat i)%Z (- Z.of_nat padding + Z.of_nat w * Z.of_nat stride_w + Z.of_nat j)%Z c));
    [intros s; now rewrite im2col_at by assumption | reflexivity |].
  unfold padded. set (Y := (- Z.of_nat padding + Z.of_nat h * Z.of_nat stride_h + Z.of_nat i)%Z). set (X := (- Z.of_nat padding + Z.of_nat w * Z.of_nat stride_w + Z.of_nat j)%Z).
  destruct (((0 <=? Y) && (Y <? Z.of_nat height) && (0 <=? X) && (X <? Z.of_nat width))%Z%bool) eqn:Eb; [|apply D_const].
  apply Hx. rewrite !andb_true_iff in Eb. destruct Eb as [[[A1 A2] A3] A4]. apply Z.leb_le in A1, A3. apply Z.ltb_lt in A2, A4.
  apply ltL; [|assumption]. apply Nat2Z.inj_lt. rewrite Z2Nat.id by nia. rewrite Nat2Z.inj_mul. nia.
Qed.
End I.
