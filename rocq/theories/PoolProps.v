(** Pooling: C46. *)
From Coq Require Import Reals Lra Lia ZArith Arith List Bool FunctionalExtensionality.
From Verif Require Import NumBase NumpyModel LayersProps ConvModel ConvBase ConvProps PoolModel.
Import ListNotations.
Open Scope R_scope.

Lemma for_range_ind {S} (P : Z -> S -> Prop) lo hi body s :
  P lo s -> (forall v s, (lo <= v < hi)%Z -> P v s -> P (v + 1)%Z (body v s)) -> P (Z.max lo hi) (for_range lo hi body s).
Proof.
  intros H0 HS. unfold for_range.
  assert (G : forall n, (n <= Z.to_nat (hi - lo))%nat -> P (lo + Z.of_nat n)%Z (loop n (fun i => body (lo + Z.of_nat i)%Z) s)).
  { induction n as [|n IH]; intros Hn; [now rewrite Z.add_0_r|]. cbn [loop]. replace (lo + Z.of_nat (Datatypes.S n))%Z with (lo + Z.of_nat n + 1)%Z by lia. apply HS; [lia | apply IH; lia]. }
  specialize (G _ (le_n _)). replace (Z.max lo hi) with (lo + Z.of_nat (Z.to_nat (hi - lo)))%Z by lia. exact G.
Qed.
Lemma loop_img n (d : nat -> img) (body : nat -> img -> img) m :
  (forall i m, (i < n)%nat -> body i m = fun y x c => m y x c + d i y x c) -> loop n body m = fun y x c => m y x c + Rsum n (fun i => d i y x c).
Proof.
  intros H. assert (G : forall k, (k <= n)%nat -> loop k body m = fun y x c => m y x c + Rsum k (fun i => d i y x c)).
  { induction k as [|k IH]; intros Hk; cbn [loop Rsum].
    - apply functional_extensionality; intros y. apply functional_extensionality; intros x. apply functional_extensionality; intros c. lra.
    - rewrite H, IH by lia. apply functional_extensionality; intros y. apply functional_extensionality; intros x. apply functional_extensionality; intros c. lra. }
  now apply G.
Qed.
Lemma add_at_eq m y x c v : add_at m y x c v = fun y' x' c' => m y' x' c' + (if ((y' =? y)%Z && (x' =? x)%Z && (c' =? c)%nat)%bool then v else 0).
Proof. unfold add_at. apply functional_extensionality; intros y'. apply functional_extensionality; intros x'. apply functional_extensionality; intros c'. destruct (_ && _)%bool; lra. Qed.
Lemma img_zero (m : img) : m = fun y x c => m y x c + 0.
Proof. apply functional_extensionality; intros y'. apply functional_extensionality; intros x'. apply functional_extensionality; intros c'. lra. Qed.
(** summing over a part of 0..n-1 *)
Lemma Rsum_part n a b f : (0 <= a)%Z -> (b <= Z.of_nat n)%Z ->
  Rsum (Z.to_nat (b - a)) (fun i => f (a + Z.of_nat i)%Z) = Rsum n (fun y => if ((a <=? Z.of_nat y) && (Z.of_nat y <? b))%Z%bool then f (Z.of_nat y) else 0).
Proof.
  intros Ha Hb. destruct (Z_le_gt_dec b a) as [L|G].
  - replace (Z.to_nat (b - a)) with O by lia. cbn [Rsum]. symmetry. apply Rsum_zero. intros i Hi. destruct (Z.leb_spec a (Z.of_nat i)), (Z.ltb_spec (Z.of_nat i) b); cbn; try reflexivity; lia.
  - replace n with (Z.to_nat a + (Z.to_nat (b - a) + (n - Z.to_nat b)))%nat by lia. rewrite !Rsum_app. rewrite (Rsum_zero (Z.to_nat a)), (Rsum_zero (n - Z.to_nat b)).
    + rewrite Rplus_0_l, Rplus_0_r. apply Rsum_ext; intros i Hi. replace (Z.of_nat (Z.to_nat a + i)) with (a + Z.of_nat i)%Z by lia.
      destruct (Z.leb_spec a (a + Z.of_nat i)), (Z.ltb_spec (a + Z.of_nat i) b); cbn; try reflexivity; lia.
    + intros i Hi. destruct (Z.leb_spec a (Z.of_nat (Z.to_nat a + (Z.to_nat (b - a) + i)))), (Z.ltb_spec (Z.of_nat (Z.to_nat a + (Z.to_nat (b - a) + i))) b); cbn; try reflexivity; lia.
    + intros i Hi. destruct (Z.leb_spec a (Z.of_nat i)), (Z.ltb_spec (Z.of_nat i) b); cbn; try reflexivity; lia.
Qed.
Lemma all_near n s0 (P : nat -> R -> Prop) : (forall i, (i < n)%nat -> exists d, 0 < d /\ forall s, Rabs (s - s0) < d -> P i s) ->
  exists d, 0 < d /\ forall s, Rabs (s - s0) < d -> forall i, (i < n)%nat -> P i s.
Proof.
  induction n as [|n IH]; intros H; [exists 1; split; [lra | intros; lia]|]. destruct IH as [d1 [P1 H1]]; [intros i Hi; apply H; lia|]. destruct (H n ltac:(lia)) as [d2 [P2 H2]].
  exists (Rmin d1 d2). split; [now apply Rmin_pos|]. intros s Hs i Hi. assert (L1 := Rmin_l d1 d2). assert (L2 := Rmin_r d1 d2). destruct (Nat.eq_dec i n) as [->|]; [apply H2; lra | apply H1; [lra | lia]].
Qed.

Section P.
Variables (in_h in_w n_channels : nat) (pool_h pool_w padding stride_y stride_x : nat).
Notation oh := (out_h in_h pool_h padding stride_y).
Notation ow := (out_w in_w pool_w padding stride_x).
Notation ymin := (y_min padding stride_y).
Notation ymax := (y_max in_h pool_h padding stride_y).
Notation xmin := (x_min padding stride_x).
Notation xmax := (x_max in_w pool_w padding stride_x).
Notation scan := (max_scan in_h in_w n_channels pool_h pool_w padding stride_y stride_x).
Notation max_fwd := (maxpool_forward in_h in_w n_channels pool_h pool_w padding stride_y stride_x).
Notation max_bwd := (maxpool_backward in_h in_w n_channels pool_h pool_w padding stride_y stride_x).
Notation avg_fwd := (avgpool_forward in_h in_w pool_h pool_w padding stride_y stride_x).
Notation avg_bwd := (avgpool_backward in_h in_w n_channels pool_h pool_w padding stride_y stride_x).

(** pixel (y, x) lies in the image and in the window of output position (y_out, x_out) *)
Definition in_window (y_out x_out : nat) (y x : Z) : Prop :=
  let top := (Z.of_nat (y_out * stride_y) - Z.of_nat padding)%Z in
  let left := (Z.of_nat (x_out * stride_x) - Z.of_nat padding)%Z in
  (0 <= y < Z.of_nat in_h)%Z /\ (0 <= x < Z.of_nat in_w)%Z /\ (top <= y < top + Z.of_nat pool_h)%Z /\ (left <= x < left + Z.of_nat pool_w)%Z.
(** the first maximum of the window, row by row *)
Definition first_max (image : img) (y_out x_out c : nat) (y x : Z) : Prop :=
  in_window y_out x_out y x /\
  (forall y' x', in_window y_out x_out y' x' -> image y' x' c <= image y x c) /\
  (forall y' x', in_window y_out x_out y' x' -> (y' < y \/ y' = y /\ x' < x)%Z -> image y' x' c < image y x c).

Lemma in_window_eq yo xo y x : in_window yo xo y x <-> ((ymin yo <= y < ymax yo)%Z /\ (xmin xo <= x < xmax xo)%Z).
Proof. unfold in_window, y_min, y_max, x_min, x_max. cbn zeta. rewrite !Nat2Z.inj_mul. lia. Qed.
Definition pos (y x : Z) (c : nat) : Z := ((y * Z.of_nat in_w + x) * Z.of_nat n_channels + Z.of_nat c)%Z.
Definition seen yo xo (Y X y x : Z) : Prop := (ymin yo <= y)%Z /\ (xmin xo <= x < xmax xo)%Z /\ (y < Y \/ y = Y /\ x < X)%Z.
Definition inv lo (image : img) (c : nat) (S : Z -> Z -> Prop) (st : R * Z) : Prop :=
  (st = (lo, (-1)%Z) /\ forall y x, S y x -> image y x c <= lo) \/
  (exists y x, S y x /\ st = (image y x c, pos y x c) /\ lo < image y x c /\ (forall y' x', S y' x' -> image y' x' c <= image y x c) /\
     (forall y' x', S y' x' -> (y' < y \/ y' = y /\ x' < x)%Z -> image y' x' c < image y x c)).
Lemma inv_ext lo image c (S S' : Z -> Z -> Prop) st : (forall y x, S y x <-> S' y x) -> inv lo image c S st -> inv lo image c S' st.
Proof.
  intros E [[-> H]|(y & x & Hs & -> & Hl & H1 & H2)].
  - left. split; [reflexivity|]. intros y x Hy. apply H. now apply E.
  - right. exists y, x. split; [now apply E|]. split; [reflexivity|]. split; [assumption|]. split; [intros; apply H1; now apply E | intros; apply H2; [now apply E | assumption]].
Qed.
Lemma scan_spec lo image yo xo c :
  (snd (scan lo image yo xo c) = (-1)%Z /\ forall y x, in_window yo xo y x -> image y x c <= lo) \/
  (exists y x, first_max image yo xo c y x /\ scan lo image yo xo c = (image y x c, pos y x c) /\ lo < image y x c).
Proof.
  assert (G : inv lo image c (in_window yo xo) (scan lo image yo xo c)).
  { apply (inv_ext lo image c (seen yo xo (Z.max (ymin yo) (ymax yo)) (xmin xo))); [intros y x; rewrite in_window_eq; unfold seen; lia|].
    apply (for_range_ind (fun Y st => inv lo image c (seen yo xo Y (xmin xo)) st)).
    - left. split; [reflexivity|]. intros y x Hs. unfold seen in Hs. lia.
    - intros Y st HY I. apply (inv_ext lo image c (seen yo xo Y (Z.max (xmin xo) (xmax xo)))); [intros y x; unfold seen; lia|].
      apply (for_range_ind (fun X st => inv lo image c (seen yo xo Y X) st)); [exact I|]. clear st I. intros X st HX I.
      destruct st as [v idx]. destruct I as [[E H]|(y & x & Hs & E & Hl & H1 & H2)]; inversion E; subst v idx; clear E; cbv beta iota zeta.
      + destruct (Rlt_dec lo (image Y X c)) as [L|L].
        * right. exists Y, X. split; [unfold seen; lia|]. split; [reflexivity|]. split; [assumption|]. split.
          -- intros y' x' Hs'. destruct (Z.eq_dec y' Y) as [->|]; [destruct (Z.eq_dec x' X) as [->|]; [lra|]|].
             ++ assert (Q : seen yo xo Y X Y x') by (unfold seen in *; lia). specialize (H _ _ Q). lra.
             ++ assert (Q : seen yo xo Y X y' x') by (unfold seen in *; lia). specialize (H _ _ Q). lra.
          -- intros y' x' Hs' B. assert (Q : seen yo xo Y X y' x') by (unfold seen in *; lia). specialize (H _ _ Q). lra.
        * left. split; [reflexivity|]. intros y' x' Hs'. destruct (Z.eq_dec y' Y) as [->|]; [destruct (Z.eq_dec x' X) as [->|]; [lra|]|]; apply H; unfold seen in *; lia.
      + destruct (Rlt_dec (image y x c) (image Y X c)) as [L|L].
        * right. exists Y, X. split; [unfold seen; lia|]. split; [reflexivity|]. split; [lra|]. split.
          -- intros y' x' Hs'. destruct (Z.eq_dec y' Y) as [->|]; [destruct (Z.eq_dec x' X) as [->|]; [lra|]|].
             ++ assert (Q : seen yo xo Y X Y x') by (unfold seen in *; lia). specialize (H1 _ _ Q). lra.
             ++ assert (Q : seen yo xo Y X y' x') by (unfold seen in *; lia). specialize (H1 _ _ Q). lra.
          -- intros y' x' Hs' B. assert (Q : seen yo xo Y X y' x') by (unfold seen in *; lia). specialize (H1 _ _ Q). lra.
        * right. exists y, x. split; [unfold seen in *; lia|]. split; [reflexivity|]. split; [lra|]. split.
          -- intros y' x' Hs'. destruct (Z.eq_dec y' Y) as [->|]; [destruct (Z.eq_dec x' X) as [->|]; [lra|]|]; apply H1; unfold seen in *; lia.
          -- intros y' x' Hs' B. apply H2; [|assumption]. unfold seen in *. lia. }
  destruct G as [[E H]|(y & x & Hs & E & Hl & H1 & H2)].
  - left. rewrite E. now split.
  - right. exists y, x. split; [now split|]. now split.
Qed.
Lemma first_max_unique image yo xo c y x y' x' : first_max image yo xo c y x -> first_max image yo xo c y' x' -> y = y' /\ x = x'.
Proof.
  intros (W & M & B) (W' & M' & B'). destruct (Z.eq_dec y y') as [<-|Ny].
  - split; [reflexivity|]. destruct (Z.lt_trichotomy x x') as [L|[E|L]]; [|assumption|].
    + assert (A := B' _ _ W ltac:(lia)). assert (A' := M _ _ W'). lra.
    + assert (A := B _ _ W' ltac:(lia)). assert (A' := M' _ _ W). lra.
  - exfalso. assert (y < y' \/ y' < y)%Z as [L|L] by lia.
    + assert (A := B' _ _ W ltac:(lia)). assert (A' := M _ _ W'). lra.
    + assert (A := B _ _ W' ltac:(lia)). assert (A' := M' _ _ W). lra.
Qed.
Lemma pos_nonneg y x c : (0 <= y)%Z -> (0 <= x)%Z -> (0 <= pos y x c)%Z.
Proof. unfold pos. nia. Qed.
Lemma pos_decode y x c : (0 <= y)%Z -> (0 <= x < Z.of_nat in_w)%Z -> (c < n_channels)%nat ->
  (pos y x c / Z.of_nat n_channels / Z.of_nat in_w = y)%Z /\ ((pos y x c / Z.of_nat n_channels) mod Z.of_nat in_w = x)%Z.
Proof.
  intros Hy Hx Hc. unfold pos. replace (((y * Z.of_nat in_w + x) * Z.of_nat n_channels + Z.of_nat c) / Z.of_nat n_channels)%Z with (y * Z.of_nat in_w + x)%Z.
  - split; [symmetry; apply (Z.div_unique _ _ _ x); lia | symmetry; apply (Z.mod_unique _ _ y); lia].
  - apply (Z.div_unique _ _ _ (Z.of_nat c)); lia.
Qed.

(** The output is the maximum over the part of the window that lies in the image, provided
    that some value there is greater than [min_value]. *)
Theorem C46_max_forward : forall precision min_value image y_out x_out c,
  (exists y x, in_window y_out x_out y x /\ min_value < image y x c) ->
  exists y x, in_window y_out x_out y x /\ fst (max_fwd precision min_value image y_out x_out c) = image y x c /\
    forall y' x', in_window y_out x_out y' x' -> image y' x' c <= image y x c.
Proof.
  intros p lo image yo xo c (y1 & x1 & W1 & L1). unfold maxpool_forward. destruct (scan_spec lo image yo xo c) as [[E H]|(y & x & F & E & L)].
  - specialize (H _ _ W1). lra.
  - exists y, x. destruct F as (W & M & B). rewrite E. assert (NN := pos_nonneg y x c ltac:(unfold in_window in W; lia) ltac:(unfold in_window in W; lia)).
    destruct (Z.eqb_spec (pos y x c) (-1)); [lia|]. split; [exact W|]. split; [reflexivity | exact M].
Qed.
(** A window completely in the padding gives 0. *)
Theorem C46_max_empty : forall precision min_value image y_out x_out c, (forall y x, ~ in_window y_out x_out y x) ->
  fst (max_fwd precision min_value image y_out x_out c) = 0.
Proof.
  intros p lo image yo xo c H. unfold maxpool_forward. destruct (scan_spec lo image yo xo c) as [[E _]|(y & x & F & _)]; [|destruct F as [W _]; now destruct (H y x)].
  destruct (scan lo image yo xo c) as [v i]. cbn in E. subst i. reflexivity.
Qed.
(** No window is completely in the padding when the padding is smaller than the kernel. *)
Theorem C46_windows : forall y_out x_out, (0 < in_h)%nat -> (0 < in_w)%nat -> (padding < pool_h)%nat -> (padding < pool_w)%nat -> (0 < stride_y)%nat -> (0 < stride_x)%nat ->
  (y_out < oh)%nat -> (x_out < ow)%nat -> exists y x, in_window y_out x_out y x.
Proof.
  intros yo xo Hh Hw Ph Pw Sy Sx Hy Hx. assert (Ay : (Z.of_nat yo < out_dim in_h padding pool_h stride_y)%Z) by (unfold out_h in Hy; lia). assert (Ax : (Z.of_nat xo < out_dim in_w padding pool_w stride_x)%Z) by (unfold out_w in Hx; lia).
  apply C45_size in Ay, Ax; try assumption. exists (Z.max 0 (Z.of_nat (yo * stride_y) - Z.of_nat padding)), (Z.max 0 (Z.of_nat (xo * stride_x) - Z.of_nat padding)). unfold in_window. cbn zeta. lia.
Qed.
(** Values that are not greater than [min_value] are ignored: a window full of the lowest
    float gives 0. *)
Theorem C46_lowest_refuted : forall precision min_value y_out x_out c, min_value < 0 ->
  fst (max_fwd precision min_value (fun _ _ _ => min_value) y_out x_out c) = 0.
Proof.
  intros p lo yo xo c Hl. unfold maxpool_forward. destruct (scan_spec lo (fun _ _ _ => lo) yo xo c) as [[E _]|(y & x & F & E & L)]; [|lra].
  destruct (scan lo (fun _ _ _ => lo) yo xo c) as [v i]. cbn in E. subst i. reflexivity.
Qed.

(** What maxpool_backward adds to one cell *)
Definition routed (argmax : nat -> nat -> nat -> Z) (yo xo c : nat) (y x : Z) : bool :=
  let m := (argmax yo xo c / Z.of_nat n_channels)%Z in
  (negb (argmax yo xo c =? -1)%Z && ((0 <=? m / Z.of_nat in_w)%Z && (0 <=? m mod Z.of_nat in_w)%Z) && ((y =? m / Z.of_nat in_w)%Z && (x =? m mod Z.of_nat in_w)%Z))%bool.
Lemma max_backward_eq argmax dout din y x c : (c < n_channels)%nat ->
  max_bwd argmax dout din y x c = din y x c + Rsum oh (fun yo => Rsum ow (fun xo => if routed argmax yo xo c y x then dout yo xo c else 0)).
Proof.
  intros Hc. unfold maxpool_backward.
  set (d := fun c1 yo xo (y x : Z) c => if (routed argmax yo xo c1 y x && (c =? c1)%nat)%bool then dout yo xo c1 else 0).
  rewrite (loop_img n_channels (fun c1 y x c => Rsum oh (fun yo => Rsum ow (fun xo => d c1 yo xo y x c)))).
  2: { intros c1 m1 H1. apply (loop_img oh (fun yo y x c => Rsum ow (fun xo => d c1 yo xo y x c))). intros yo m2 H2. apply (loop_img ow (fun xo y x c => d c1 yo xo y x c)). intros xo m3 H3. cbv zeta.
       unfold d, routed. cbv zeta. set (m := (argmax yo xo c1 / Z.of_nat n_channels)%Z). destruct (argmax yo xo c1 =? -1)%Z; [apply img_zero|]. cbn [negb].
       destruct ((0 <=? m / Z.of_nat in_w) && (0 <=? m mod Z.of_nat in_w))%Z%bool; [apply add_at_eq | apply img_zero]. }
  f_equal. rewrite (Rsum_single n_channels c); [|assumption|].
  - apply Rsum_ext; intros yo _. apply Rsum_ext; intros xo _. unfold d. now rewrite Nat.eqb_refl, andb_true_r.
  - intros c1 _ N. apply Rsum_zero; intros yo _. apply Rsum_zero; intros xo _. unfold d. destruct (Nat.eqb_spec c c1); [congruence|]. now rewrite andb_false_r.
Qed.
Lemma store_exact p z : (Z.abs z < 2 ^ p)%Z -> store_int p z = z.
Proof. intros H. unfold store_int. now rewrite (proj2 (Z.ltb_lt _ _) H). Qed.
Lemma argmax_exact p lo image yo xo c : (c < n_channels)%nat -> (Z.of_nat (in_h * in_w * n_channels) <= 2 ^ p)%Z -> (1 <= p)%Z ->
  snd (max_fwd p lo image yo xo c) = snd (scan lo image yo xo c).
Proof.
  intros Hc Hp H1. unfold maxpool_forward. assert (G : (Z.abs (snd (scan lo image yo xo c)) < 2 ^ p)%Z).
  { destruct (scan_spec lo image yo xo c) as [[E _]|(y & x & F & E & L)]; rewrite E; cbn [snd].
    - assert (2 ^ 1 <= 2 ^ p)%Z by (apply Z.pow_le_mono_r; lia). lia.
    - destruct F as [W _]. unfold in_window in W. cbn zeta in W. rewrite Z.abs_eq by (apply pos_nonneg; lia). rewrite !Nat2Z.inj_mul in Hp. unfold pos.
      assert (y * Z.of_nat in_w + x < Z.of_nat in_h * Z.of_nat in_w)%Z by nia. assert ((y * Z.of_nat in_w + x + 1) * Z.of_nat n_channels <= Z.of_nat in_h * Z.of_nat in_w * Z.of_nat n_channels)%Z by (apply Z.mul_le_mono_nonneg_r; lia). lia. }
  destruct (scan lo image yo xo c) as [v i]. cbn [snd] in *. now apply store_exact.
Qed.
Lemma routed_iff p lo image yo xo c y x : (c < n_channels)%nat -> (Z.of_nat (in_h * in_w * n_channels) <= 2 ^ p)%Z -> (1 <= p)%Z ->
  routed (fun yo xo c => snd (max_fwd p lo image yo xo c)) yo xo c y x = true <-> (first_max image yo xo c y x /\ lo < image y x c).
Proof.
  intros Hc Hp H1. unfold routed. cbv beta zeta. rewrite argmax_exact by assumption. rewrite !andb_true_iff, negb_true_iff, Z.eqb_neq, !Z.leb_le, !Z.eqb_eq.
  destruct (scan_spec lo image yo xo c) as [[E H]|(y0 & x0 & F & E & L)]; rewrite E; cbn [snd].
  - split; [intros [[C _] _]; now destruct C|]. intros [(W & _) L]. specialize (H _ _ W). lra.
  - assert (W : in_window yo xo y0 x0) by apply F. unfold in_window in W. cbn zeta in W. destruct (pos_decode y0 x0 c ltac:(lia) ltac:(lia) Hc) as [E1 E2]. rewrite E1, E2. split.
    + intros [_ [-> ->]]. now split.
    + intros [F' _]. destruct (first_max_unique _ _ _ _ _ _ _ _ F F') as [<- <-]. assert (NN := pos_nonneg y0 x0 c ltac:(lia) ltac:(lia)). lia.
Qed.
(** The backward pass adds the delta of each output to the position of its first maximum and
    to no other: when the flat index of every pixel is an exact floating point number. *)
Theorem C46_max_backward : forall precision min_value image dout din y x c (b : nat -> nat -> bool),
  (c < n_channels)%nat -> (Z.of_nat (in_h * in_w * n_channels) <= 2 ^ precision)%Z -> (1 <= precision)%Z ->
  (forall y_out x_out, b y_out x_out = true <-> (first_max image y_out x_out c y x /\ min_value < image y x c)) ->
  max_bwd (fun y_out x_out c => snd (max_fwd precision min_value image y_out x_out c)) dout din y x c
  = din y x c + Rsum oh (fun y_out => Rsum ow (fun x_out => if b y_out x_out then dout y_out x_out c else 0)).
Proof.
  intros p lo image dout din y x c b Hc Hp H1 Hb. rewrite max_backward_eq by assumption. f_equal. apply Rsum_ext; intros yo _. apply Rsum_ext; intros xo _.
  assert (E := routed_iff p lo image yo xo c y x Hc Hp H1). rewrite <- Hb in E. destruct (routed _ _ _ _ _ _), (b yo xo); try reflexivity; exfalso; intuition congruence.
Qed.

(** With a strict maximum in every window the backward pass is the derivative. *)
Theorem C46_max_gradient : forall precision min_value s0 (u : R -> img) (u' : img) dout din,
  (Z.of_nat (in_h * in_w * n_channels) <= 2 ^ precision)%Z -> (1 <= precision)%Z ->
  (forall y x c, (y < in_h)%nat -> (x < in_w)%nat -> (c < n_channels)%nat -> D s0 (fun s => u s (Z.of_nat y) (Z.of_nat x) c) (u' (Z.of_nat y) (Z.of_nat x) c)) ->
  (forall y_out x_out c, (y_out < oh)%nat -> (x_out < ow)%nat -> (c < n_channels)%nat ->
    (forall y x, ~ in_window y_out x_out y x) \/
    exists y x, in_window y_out x_out y x /\ min_value < u s0 y x c /\ forall y' x', in_window y_out x_out y' x' -> y' = y /\ x' = x \/ u s0 y' x' c < u s0 y x c) ->
  let din1 := max_bwd (fun y_out x_out c => snd (max_fwd precision min_value (u s0) y_out x_out c)) dout din in
  D s0 (fun s => Rsum n_channels (fun c => Rsum oh (fun y_out => Rsum ow (fun x_out => dout y_out x_out c * fst (max_fwd precision min_value (u s) y_out x_out c)))))
       (Rsum n_channels (fun c => Rsum in_h (fun y => Rsum in_w (fun x => (din1 (Z.of_nat y) (Z.of_nat x) c - din (Z.of_nat y) (Z.of_nat x) c) * u' (Z.of_nat y) (Z.of_nat x) c)))).
Proof.
  intros p lo s0 u u' dout din Hp H1 Hu HM. cbv zeta. set (am := fun yo xo c => snd (max_fwd p lo (u s0) yo xo c)).
  apply (D_sum s0 n_channels (fun c s => Rsum oh (fun yo => Rsum ow (fun xo => dout yo xo c * fst (max_fwd p lo (u s) yo xo c))))). intros c Hc.
  apply (D_eq s0 _ (Rsum oh (fun yo => Rsum ow (fun xo => dout yo xo c * Rsum in_h (fun y => Rsum in_w (fun x => if routed am yo xo c (Z.of_nat y) (Z.of_nat x) then u' (Z.of_nat y) (Z.of_nat x) c else 0)))))).
  - apply (D_sum s0 oh (fun yo s => Rsum ow (fun xo => dout yo xo c * fst (max_fwd p lo (u s) yo xo c)))). intros yo Hyo. apply (D_sum s0 ow (fun xo s => dout yo xo c * fst (max_fwd p lo (u s) yo xo c))). intros xo Hxo.
    apply (D_scal s0 (dout yo xo c) (fun s => fst (max_fwd p lo (u s) yo xo c))). destruct (HM yo xo c Hyo Hxo Hc) as [He|(y & x & W & L & M)].
    + apply (D_ext s0 (fun _ => 0) _ 0); [intros s; symmetry; now apply C46_max_empty | | apply D_const]. symmetry. apply Rsum_zero; intros y Hy. apply Rsum_zero; intros x Hx.
      destruct (routed am yo xo c (Z.of_nat y) (Z.of_nat x)) eqn:Er; [|reflexivity]. exfalso. apply (routed_iff p lo (u s0) yo xo c) in Er; try assumption. destruct Er as [(W & _) _]. now apply (He _ _ W).
    + assert (B : (0 <= y < Z.of_nat in_h)%Z /\ (0 <= x < Z.of_nat in_w)%Z) by (unfold in_window in W; cbn zeta in W; tauto).
      set (yn := Z.to_nat y). set (xn := Z.to_nat x). assert (Ey : Z.of_nat yn = y) by (unfold yn; lia). assert (Ex : Z.of_nat xn = x) by (unfold xn; lia).
      assert (FM : first_max (u s0) yo xo c y x). { split; [assumption|]. split; intros y' x' W'; [destruct (M _ _ W') as [[-> ->]|]; lra | intros Bf; destruct (M _ _ W') as [[-> ->]|]; [lia | lra]]. }
      rewrite (Rsum_single in_h yn); [|unfold yn; lia|].
      2: { intros y2 Hy2 Ny. apply Rsum_zero; intros x2 Hx2. destruct (routed am yo xo c (Z.of_nat y2) (Z.of_nat x2)) eqn:Er; [|reflexivity]. exfalso. apply (routed_iff p lo (u s0) yo xo c) in Er; try assumption. destruct (first_max_unique _ _ _ _ _ _ _ _ FM (proj1 Er)). lia. }
      rewrite (Rsum_single in_w xn); [|unfold xn; lia|].
      2: { intros x2 Hx2 Nx. destruct (routed am yo xo c (Z.of_nat yn) (Z.of_nat x2)) eqn:Er; [|reflexivity]. exfalso. apply (routed_iff p lo (u s0) yo xo c) in Er; try assumption. destruct (first_max_unique _ _ _ _ _ _ _ _ FM (proj1 Er)). lia. }
      rewrite Ey, Ex. replace (routed am yo xo c y x) with true by (symmetry; apply routed_iff; try assumption; now split).
      apply (D_local s0 (fun s => u s y x c)); [|rewrite <- Ey, <- Ex; apply Hu; unfold yn, xn; lia].
      assert (Hd : forall y2 x2, (y2 < in_h)%nat -> (x2 < in_w)%nat -> exists d, 0 < d /\ forall s, Rabs (s - s0) < d -> lo < u s y x c /\ (in_window yo xo (Z.of_nat y2) (Z.of_nat x2) -> Z.of_nat y2 = y /\ Z.of_nat x2 = x \/ u s (Z.of_nat y2) (Z.of_nat x2) c < u s y x c)).
      { intros y2 x2 Hy2 Hx2. destruct (D_near s0 (fun s => u s y x c) (u' y x c) (u s0 y x c - lo)) as [d1 [P1 N1]]; [rewrite <- Ey, <- Ex; apply Hu; unfold yn, xn; lia | lra |].
        destruct (Rlt_dec (u s0 (Z.of_nat y2) (Z.of_nat x2) c) (u s0 y x c)) as [Ls|Ls].
        - destruct (D_near s0 (fun s => u s y x c - u s (Z.of_nat y2) (Z.of_nat x2) c) (u' y x c - u' (Z.of_nat y2) (Z.of_nat x2) c) (u s0 y x c - u s0 (Z.of_nat y2) (Z.of_nat x2) c)) as [d2 [P2 N2]];
            [apply (D_minus s0 (fun s => u s y x c) (fun s => u s (Z.of_nat y2) (Z.of_nat x2) c)); [rewrite <- Ey, <- Ex; apply Hu; unfold yn, xn; lia | now apply Hu] | lra |].
          exists (Rmin d1 d2). split; [now apply Rmin_pos|]. intros s Hs. assert (A1 := Rmin_l d1 d2). assert (A2 := Rmin_r d1 d2). specialize (N1 s ltac:(lra)). specialize (N2 s ltac:(lra)). cbv beta in N1, N2.
          apply Rabs_def2 in N1, N2. split; [lra|]. intros _. right. lra.
        - exists d1. split; [assumption|]. intros s Hs. specialize (N1 s Hs). cbv beta in N1. apply Rabs_def2 in N1. split; [lra|]. intros W2. left. destruct (M _ _ W2) as [Q|Q]; [assumption | contradiction]. }
      destruct (all_near in_h s0 (fun y2 s => forall x2, (x2 < in_w)%nat -> lo < u s y x c /\ (in_window yo xo (Z.of_nat y2) (Z.of_nat x2) -> Z.of_nat y2 = y /\ Z.of_nat x2 = x \/ u s (Z.of_nat y2) (Z.of_nat x2) c < u s y x c))) as [d [Pd Nd]].
      { intros y2 Hy2. apply (all_near in_w s0 (fun x2 s => lo < u s y x c /\ (in_window yo xo (Z.of_nat y2) (Z.of_nat x2) -> Z.of_nat y2 = y /\ Z.of_nat x2 = x \/ u s (Z.of_nat y2) (Z.of_nat x2) c < u s y x c))). intros x2 Hx2. now apply Hd. }
      exists d. split; [assumption|]. intros s Hs. specialize (Nd s Hs). assert (Ls : lo < u s y x c) by (refine (proj1 (Nd yn _ xn _)); [unfold yn | unfold xn]; lia).
      unfold maxpool_forward. destruct (scan_spec lo (u s) yo xo c) as [[E H]|(y3 & x3 & F3 & E3 & L3)]; [specialize (H _ _ W); lra|]. rewrite E3.
      assert (W3 : in_window yo xo y3 x3) by apply F3. unfold in_window in W3. cbn zeta in W3. assert (NN := pos_nonneg y3 x3 c ltac:(lia) ltac:(lia)). destruct (Z.eqb_spec (pos y3 x3 c) (-1)); [lia|]. cbn [fst].
      destruct (Nd (Z.to_nat y3) ltac:(lia) (Z.to_nat x3) ltac:(lia)) as [_ Q]. rewrite !Z2Nat.id in Q by lia. destruct (Q (proj1 F3)) as [[-> ->]|Q1]; [reflexivity|]. destruct F3 as (_ & M3 & _). specialize (M3 _ _ W). lra.
  - transitivity (Rsum in_h (fun y => Rsum in_w (fun x => Rsum oh (fun yo => Rsum ow (fun xo => (if routed am yo xo c (Z.of_nat y) (Z.of_nat x) then dout yo xo c else 0) * u' (Z.of_nat y) (Z.of_nat x) c))))).
    + transitivity (Rsum oh (fun yo => Rsum ow (fun xo => Rsum in_h (fun y => Rsum in_w (fun x => (if routed am yo xo c (Z.of_nat y) (Z.of_nat x) then dout yo xo c else 0) * u' (Z.of_nat y) (Z.of_nat x) c))))).
      { apply Rsum_ext; intros yo _. apply Rsum_ext; intros xo _. rewrite <- Rsum_scal. apply Rsum_ext; intros y _. rewrite <- Rsum_scal. apply Rsum_ext; intros x _. destruct (routed _ _ _ _ _ _); lra. }
      rewrite (Rsum_ext oh _ (fun yo => Rsum in_h (fun y => Rsum ow (fun xo => Rsum in_w (fun x => (if routed am yo xo c (Z.of_nat y) (Z.of_nat x) then dout yo xo c else 0) * u' (Z.of_nat y) (Z.of_nat x) c))))) by (intros; apply Rsum_swap).
      rewrite Rsum_swap. apply Rsum_ext; intros y _.
      rewrite (Rsum_ext oh _ (fun yo => Rsum in_w (fun x => Rsum ow (fun xo => (if routed am yo xo c (Z.of_nat y) (Z.of_nat x) then dout yo xo c else 0) * u' (Z.of_nat y) (Z.of_nat x) c)))) by (intros; apply Rsum_swap).
      apply Rsum_swap.
    + apply Rsum_ext; intros y _. apply Rsum_ext; intros x _. rewrite max_backward_eq by assumption. rewrite Rplus_comm. unfold Rminus. rewrite Rplus_assoc, Rplus_opp_r, Rplus_0_r.
      rewrite <- Rsum_scal_r. apply Rsum_ext; intros yo _. now rewrite <- Rsum_scal_r.
Qed.

(** ** Average pooling *)
Definition in_windowb (yo xo : nat) (y x : Z) : bool :=
  ((ymin yo <=? y) && (y <? ymax yo) && ((xmin xo <=? x) && (x <? xmax xo)))%Z%bool.
Lemma in_windowb_iff yo xo y x : in_windowb yo xo y x = true <-> in_window yo xo y x.
Proof. rewrite in_window_eq. unfold in_windowb. rewrite !andb_true_iff, !Z.leb_le, !Z.ltb_lt. tauto. Qed.
Lemma for_range_sum lo hi (g : Z -> R) (body : Z -> R -> R) v : (forall z v, body z v = v + g z) -> for_range lo hi body v = v + Rsum (Z.to_nat (hi - lo)) (fun i => g (lo + Z.of_nat i)%Z).
Proof. intros H. unfold for_range. induction (Z.to_nat (hi - lo)) as [|n IH]; cbn [loop Rsum]; [lra|]. rewrite H, IH. lra. Qed.
(** sum over the window *)
Definition window_sum (yo xo : nat) (g : Z -> Z -> R) : R := Rsum in_h (fun y => Rsum in_w (fun x => if in_windowb yo xo (Z.of_nat y) (Z.of_nat x) then g (Z.of_nat y) (Z.of_nat x) else 0)).
Lemma window_loops yo xo (g : Z -> Z -> R) :
  Rsum (Z.to_nat (ymax yo - ymin yo)) (fun i => Rsum (Z.to_nat (xmax xo - xmin xo)) (fun j => g (ymin yo + Z.of_nat i)%Z (xmin xo + Z.of_nat j)%Z)) = window_sum yo xo g.
Proof.
  rewrite (Rsum_part in_h (ymin yo) (ymax yo) (fun y => Rsum (Z.to_nat (xmax xo - xmin xo)) (fun j => g y (xmin xo + Z.of_nat j)%Z))) by (unfold y_min, y_max; lia).
  apply Rsum_ext; intros y _. unfold in_windowb. destruct ((ymin yo <=? Z.of_nat y) && (Z.of_nat y <? ymax yo))%Z%bool; cbn [andb].
  - exact (Rsum_part in_w (xmin xo) (xmax xo) (g (Z.of_nat y)) ltac:(unfold x_min; lia) ltac:(unfold x_max; lia)).
  - symmetry. now apply Rsum_zero.
Qed.
Lemma avg_value image yo xo c : avg_fwd image yo xo c = window_sum yo xo (fun y x => image y x c) / IZR (Z.max ((ymax yo - ymin yo) * (xmax xo - xmin xo)) 1).
Proof.
  unfold avgpool_forward. f_equal. rewrite (for_range_sum _ _ (fun y => Rsum (Z.to_nat (xmax xo - xmin xo)) (fun j => image y (xmin xo + Z.of_nat j)%Z c))).
  - rewrite Rplus_0_l. apply (window_loops yo xo (fun y x => image y x c)).
  - intros y v. now apply (for_range_sum _ _ (fun x => image y x c)).
Qed.
Lemma window_size yo xo : (exists y x, in_window yo xo y x) -> window_sum yo xo (fun _ _ => 1) = IZR ((ymax yo - ymin yo) * (xmax xo - xmin xo)) /\ ((ymax yo - ymin yo) * (xmax xo - xmin xo) >= 1)%Z.
Proof.
  intros (y & x & W). rewrite in_window_eq in W. split; [|nia]. rewrite <- (window_loops yo xo (fun _ _ => 1)). rewrite (Rsum_ext _ _ (fun _ => INR (Z.to_nat (xmax xo - xmin xo)))) by (intros; rewrite Rsum_const; lra).
  rewrite Rsum_const, <- mult_INR, INR_IZR_INZ. f_equal. rewrite Nat2Z.inj_mul, !Z2Nat.id by lia. reflexivity.
Qed.
(** The output is the mean over the pixels that lie in the window and in the image: for
    every decision procedure [b] for that *)
Theorem C46_avg_forward : forall image y_out x_out c (b : nat -> nat -> bool),
  (exists y x, in_window y_out x_out y x) -> (forall y x, b y x = true <-> in_window y_out x_out (Z.of_nat y) (Z.of_nat x)) ->
  avg_fwd image y_out x_out c
  = Rsum in_h (fun y => Rsum in_w (fun x => if b y x then image (Z.of_nat y) (Z.of_nat x) c else 0)) / Rsum in_h (fun y => Rsum in_w (fun x => if b y x then 1 else 0)).
Proof.
  intros image yo xo c b He Hb. rewrite avg_value. destruct (window_size yo xo He) as [E G]. rewrite Z.max_l by lia. rewrite <- E. unfold window_sum.
  assert (Q : forall y x, in_windowb yo xo (Z.of_nat y) (Z.of_nat x) = b y x).
  { intros y x. assert (A := in_windowb_iff yo xo (Z.of_nat y) (Z.of_nat x)). rewrite <- Hb in A. destruct (in_windowb _ _ _ _), (b y x); try reflexivity; exfalso; intuition congruence. }
  unfold Rdiv. apply (f_equal2 Rmult); [|apply (f_equal Rinv)]; apply Rsum_ext; intros y _; apply Rsum_ext; intros x _; now rewrite Q.
Qed.
Theorem C46_avg_empty : forall image y_out x_out c, (forall y x, ~ in_window y_out x_out y x) -> avg_fwd image y_out x_out c = 0.
Proof.
  intros image yo xo c He. rewrite avg_value. unfold window_sum. rewrite Rsum_zero; [unfold Rdiv; lra|]. intros y _. apply Rsum_zero; intros x _. destruct (in_windowb yo xo (Z.of_nat y) (Z.of_nat x)) eqn:E; [|reflexivity]. apply in_windowb_iff in E. now apply He in E.
Qed.
Lemma for_range_img lo hi (g : Z -> img) (body : Z -> img -> img) m : (forall z m, body z m = fun y x c => m y x c + g z y x c) ->
  for_range lo hi body m = fun y x c => m y x c + Rsum (Z.to_nat (hi - lo)) (fun i => g (lo + Z.of_nat i)%Z y x c).
Proof. intros H. unfold for_range. apply (loop_img _ (fun i => g (lo + Z.of_nat i)%Z)). intros i m1 _. apply H. Qed.
Lemma avg_backward_eq dout din y x c : (c < n_channels)%nat -> (y < in_h)%nat -> (x < in_w)%nat ->
  avg_bwd dout din (Z.of_nat y) (Z.of_nat x) c
  = din (Z.of_nat y) (Z.of_nat x) c + Rsum oh (fun yo => Rsum ow (fun xo => if in_windowb yo xo (Z.of_nat y) (Z.of_nat x) then dout yo xo c / IZR ((ymax yo - ymin yo) * (xmax xo - xmin xo)) else 0)).
Proof.
  intros Hc Hy Hx. unfold avgpool_backward. set (v := fun yo xo c => dout yo xo c / IZR ((ymax yo - ymin yo) * (xmax xo - xmin xo))).
  set (d := fun c1 yo xo (yy xx : Z) (y x : Z) (c : nat) => if ((y =? yy)%Z && (x =? xx)%Z && (c =? c1)%nat)%bool then v yo xo c1 else 0).
  set (dd := fun c1 yo xo (y x : Z) (c : nat) => Rsum (Z.to_nat (ymax yo - ymin yo)) (fun i => Rsum (Z.to_nat (xmax xo - xmin xo)) (fun j => d c1 yo xo (ymin yo + Z.of_nat i)%Z (xmin xo + Z.of_nat j)%Z y x c))).
  rewrite (loop_img n_channels (fun c1 y x c => Rsum oh (fun yo => Rsum ow (fun xo => dd c1 yo xo y x c)))).
  2: { intros c1 m1 H1. apply (loop_img oh (fun yo y x c => Rsum ow (fun xo => dd c1 yo xo y x c))). intros yo m2 H2. apply (loop_img ow (fun xo y x c => dd c1 yo xo y x c)). intros xo m3 H3. cbv zeta.
       apply (for_range_img _ _ (fun yy y x c => Rsum (Z.to_nat (xmax xo - xmin xo)) (fun j => d c1 yo xo yy (xmin xo + Z.of_nat j)%Z y x c))). intros yy m4. apply (for_range_img _ _ (fun xx y x c => d c1 yo xo yy xx y x c)). intros xx m5. apply add_at_eq. }
  f_equal. rewrite (Rsum_single n_channels c); [|assumption|].
  - apply Rsum_ext; intros yo _. apply Rsum_ext; intros xo _. unfold dd. rewrite (window_loops yo xo (fun yy xx => d c yo xo yy xx (Z.of_nat y) (Z.of_nat x) c)). unfold window_sum, d.
    rewrite (Rsum_single in_h y); [|assumption|].
    + rewrite (Rsum_single in_w x); [|assumption|].
      * rewrite !Z.eqb_refl, Nat.eqb_refl. reflexivity.
      * intros x2 _ N. destruct (Z.eqb_spec (Z.of_nat x) (Z.of_nat x2)); [lia|]. rewrite andb_false_r. now destruct (in_windowb _ _ _ _).
    + intros y2 _ N. apply Rsum_zero; intros x2 _. destruct (Z.eqb_spec (Z.of_nat y) (Z.of_nat y2)); [lia|]. now destruct (in_windowb _ _ _ _).
  - intros c1 _ N. apply Rsum_zero; intros yo _. apply Rsum_zero; intros xo _. apply Rsum_zero; intros i _. apply Rsum_zero; intros j _. unfold d. destruct (Nat.eqb_spec c c1); [congruence|]. now rewrite andb_false_r.
Qed.
(** The backward pass is the derivative (also for windows in the padding). *)
Theorem C46_avg_gradient : forall s0 (u : R -> img) (u' : img) dout din,
  (forall y x c, (y < in_h)%nat -> (x < in_w)%nat -> (c < n_channels)%nat -> D s0 (fun s => u s (Z.of_nat y) (Z.of_nat x) c) (u' (Z.of_nat y) (Z.of_nat x) c)) ->
  let din1 := avg_bwd dout din in
  D s0 (fun s => Rsum n_channels (fun c => Rsum oh (fun y_out => Rsum ow (fun x_out => dout y_out x_out c * avg_fwd (u s) y_out x_out c))))
       (Rsum n_channels (fun c => Rsum in_h (fun y => Rsum in_w (fun x => (din1 (Z.of_nat y) (Z.of_nat x) c - din (Z.of_nat y) (Z.of_nat x) c) * u' (Z.of_nat y) (Z.of_nat x) c)))).
Proof.
  intros s0 u u' dout din Hu. cbv zeta.
  apply (D_sum s0 n_channels (fun c s => Rsum oh (fun yo => Rsum ow (fun xo => dout yo xo c * avg_fwd (u s) yo xo c)))). intros c Hc.
  set (sz := fun yo xo => IZR (Z.max ((ymax yo - ymin yo) * (xmax xo - xmin xo)) 1)).
  apply (D_eq s0 _ (Rsum oh (fun yo => Rsum ow (fun xo => dout yo xo c * (window_sum yo xo (fun y x => u' y x c) * / sz yo xo))))).
  - apply (D_sum s0 oh (fun yo s => Rsum ow (fun xo => dout yo xo c * avg_fwd (u s) yo xo c))). intros yo Hyo. apply (D_sum s0 ow (fun xo s => dout yo xo c * avg_fwd (u s) yo xo c)). intros xo Hxo.
    apply (D_scal s0 (dout yo xo c) (fun s => avg_fwd (u s) yo xo c)).
    apply (D_ext s0 (fun s => window_sum yo xo (fun y x => u s y x c) * / sz yo xo) _ (window_sum yo xo (fun y x => u' y x c) * / sz yo xo)); [intros s; now rewrite avg_value | reflexivity |].
    apply (D_scal_r s0 (/ sz yo xo) (fun s => window_sum yo xo (fun y x => u s y x c))). unfold window_sum.
    apply (D_sum2 s0 in_h in_w (fun s y x => if in_windowb yo xo (Z.of_nat y) (Z.of_nat x) then u s (Z.of_nat y) (Z.of_nat x) c else 0) (fun y x => if in_windowb yo xo (Z.of_nat y) (Z.of_nat x) then u' (Z.of_nat y) (Z.of_nat x) c else 0)).
    intros y x Hy Hx. destruct (in_windowb _ _ _ _); [now apply Hu | apply D_const].
  - set (g := fun yo xo y x => if in_windowb yo xo (Z.of_nat y) (Z.of_nat x) then dout yo xo c / IZR ((ymax yo - ymin yo) * (xmax xo - xmin xo)) else 0).
    transitivity (Rsum oh (fun yo => Rsum ow (fun xo => Rsum in_h (fun y => Rsum in_w (fun x => g yo xo y x * u' (Z.of_nat y) (Z.of_nat x) c))))).
    { apply Rsum_ext; intros yo _. apply Rsum_ext; intros xo _. unfold window_sum. rewrite <- Rsum_scal_r, <- Rsum_scal. apply Rsum_ext; intros y _. rewrite <- Rsum_scal_r, <- Rsum_scal. apply Rsum_ext; intros x _.
      unfold g. destruct (in_windowb yo xo (Z.of_nat y) (Z.of_nat x)) eqn:E; [|lra]. apply in_windowb_iff in E. destruct (window_size yo xo (ex_intro _ _ (ex_intro _ _ E))) as [_ G]. unfold sz. rewrite Z.max_l by lia. unfold Rdiv. lra. }
    transitivity (Rsum in_h (fun y => Rsum in_w (fun x => Rsum oh (fun yo => Rsum ow (fun xo => g yo xo y x * u' (Z.of_nat y) (Z.of_nat x) c))))).
    + rewrite (Rsum_ext oh _ (fun yo => Rsum in_h (fun y => Rsum ow (fun xo => Rsum in_w (fun x => g yo xo y x * u' (Z.of_nat y) (Z.of_nat x) c))))) by (intros; apply Rsum_swap).
      rewrite Rsum_swap. apply Rsum_ext; intros y _.
      rewrite (Rsum_ext oh _ (fun yo => Rsum in_w (fun x => Rsum ow (fun xo => g yo xo y x * u' (Z.of_nat y) (Z.of_nat x) c)))) by (intros; apply Rsum_swap).
      apply Rsum_swap.
    + apply Rsum_ext; intros y Hy. apply Rsum_ext; intros x Hx. rewrite avg_backward_eq by assumption. rewrite Rplus_comm. unfold Rminus. rewrite Rplus_assoc, Rplus_opp_r, Rplus_0_r.
      rewrite <- Rsum_scal_r. apply Rsum_ext; intros yo _. now rewrite <- Rsum_scal_r.
Qed.

(** With float32 the pixel with the flat index 2^24 + 1 never receives a delta, whatever
    the image: its index is rounded. *)
Lemma float32_lost : forall min_value image dout din y x c, (c < n_channels)%nat -> (0 < in_w)%nat ->
  ((y * Z.of_nat in_w + x) * Z.of_nat n_channels + Z.of_nat c = 2 ^ 24 + 1)%Z -> n_channels = 1%nat ->
  max_bwd (fun y_out x_out c => snd (max_fwd 24 min_value image y_out x_out c)) dout din y x c = din y x c.
Proof.
  intros lo image dout din y x c Hc Hw Hp H1. rewrite max_backward_eq by assumption. rewrite Rsum_zero; [lra|]. intros yo _. apply Rsum_zero; intros xo _.
  unfold routed. cbv beta zeta. set (a := snd (max_fwd 24 lo image yo xo c)).
  destruct (negb (a =? -1)%Z && ((0 <=? a / Z.of_nat n_channels / Z.of_nat in_w)%Z && (0 <=? (a / Z.of_nat n_channels) mod Z.of_nat in_w)%Z) && ((y =? a / Z.of_nat n_channels / Z.of_nat in_w)%Z && (x =? (a / Z.of_nat n_channels) mod Z.of_nat in_w)%Z))%bool eqn:E; [|reflexivity]. exfalso.
  rewrite !andb_true_iff, !Z.eqb_eq in E. destruct E as [_ [E1 E2]]. rewrite H1 in *. assert (c = 0%nat) by lia. subst c. change (Z.of_nat 1) with 1%Z in *. rewrite Z.div_1_r in E1, E2.
  assert (A : a = (2 ^ 24 + 1)%Z) by (assert (Q := Z.div_mod a (Z.of_nat in_w) ltac:(lia)); lia).
  unfold a, maxpool_forward in A. destruct (scan lo image yo xo 0%nat) as [v z]. cbn [snd] in A. revert A. clear. unfold store_int. destruct (Z.ltb_spec (Z.abs z) (2 ^ 24)) as [L|L]; [lia|]. intros A.
  set (e := (Z.log2 (Z.abs z) - (24 - 1))%Z) in *. assert (He : (1 <= e)%Z).
  { unfold e. assert (Z.log2 (2 ^ 24) <= Z.log2 (Z.abs z))%Z by (apply Z.log2_le_mono; lia). rewrite Z.log2_pow2 in H by lia. lia. }
  assert (P : (2 ^ e = 2 * 2 ^ (e - 1))%Z) by (rewrite <- Z.pow_succ_r by lia; f_equal; lia). rewrite P in A.
  apply (f_equal Z.even) in A. rewrite !Z.even_mul in A. cbn in A. rewrite !orb_true_r in A. discriminate A.
Qed.
End P.
(** A wide image with one row and one channel, 1 x 1 windows: each output is an input.  The
    pixel 2^24 + 1 determines its output, but its delta stays as it was. *)
Theorem C46_float32_refuted : forall in_w k min_value image dout din, Z.of_nat k = (2 ^ 24 + 1)%Z -> (k < in_w)%nat -> min_value < image 0%Z (Z.of_nat k) O ->
  fst (maxpool_forward 1 in_w 1 1 1 0 1 1 24 min_value image 0 k 0) = image 0%Z (Z.of_nat k) O /\
  maxpool_backward 1 in_w 1 1 1 0 1 1 (fun y_out x_out c => snd (maxpool_forward 1 in_w 1 1 1 0 1 1 24 min_value image y_out x_out c)) dout din 0%Z (Z.of_nat k) O = din 0%Z (Z.of_nat k) O.
Proof.
  intros in_w k lo image dout din Hk Hw L. split.
  - destruct (C46_max_forward 1 in_w 1 1 1 0 1 1 24 lo image 0 k 0) as (y & x & W & E & _).
    + exists 0%Z, (Z.of_nat k). split; [|exact L]. unfold in_window. cbn zeta. lia.
    + rewrite E. unfold in_window in W. cbn zeta in W. replace y with 0%Z by lia. now replace x with (Z.of_nat k) by lia.
  - apply float32_lost; lia.
Qed.
Print Assumptions C46_max_forward.
Print Assumptions C46_max_empty.
Print Assumptions C46_windows.
Print Assumptions C46_lowest_refuted.
Print Assumptions C46_max_backward.
Print Assumptions C46_max_gradient.
Print Assumptions C46_avg_forward.
Print Assumptions C46_avg_empty.
Print Assumptions C46_avg_gradient.
Print Assumptions C46_float32_refuted.

Ltac calc := cbv -[Rplus Rmult Ropp IZR INR Rminus Rdiv Rinv Rlt Rle]; lra.
(** A 3 x 3 image with one channel, 2 x 2 windows, stride 2, padding 1: four windows, the
    first contains one pixel, the last four. *)
Example C46_case :
  let image : img := fun y x _ => nth (Z.to_nat (y * 3 + x)) [1; 5; 2; 8; 3; 3; 0; 9; 9] 0 in
  let dout := fun y x (_ : nat) => nth (y * 2 + x)%nat [1; 10; 100; 1000] 0 in
  out_h 3 2 1 2 = 2%nat /\ out_w 3 2 1 2 = 2%nat /\
  (fst (maxpool_forward 3 3 1 2 2 1 2 2 24 (-1000) image 0 0 0) = 1 /\ fst (maxpool_forward 3 3 1 2 2 1 2 2 24 (-1000) image 1 1 0) = 9) /\
  (in_window 3 3 2 2 1 2 2 1 1 2 1 /\ first_max 3 3 2 2 1 2 2 image 1 1 0 2 1) /\
  (avgpool_forward 3 3 2 2 1 2 2 image 0 0 0 = 1 /\ avgpool_forward 3 3 2 2 1 2 2 image 1 1 0 = 6) /\
  (avgpool_backward 3 3 1 2 2 1 2 2 dout (fun _ _ _ => 7) 0%Z 0%Z O = 8 /\ avgpool_backward 3 3 1 2 2 1 2 2 dout (fun _ _ _ => 7) 1%Z 1%Z O = 257).
Proof.
  cbv zeta. split; [reflexivity|]. split; [reflexivity|]. split.
  { split.
    - destruct (C46_max_forward 3 3 1 2 2 1 2 2 24 (-1000) (fun y x _ => nth (Z.to_nat (y * 3 + x)) [1; 5; 2; 8; 3; 3; 0; 9; 9] 0) 0 0 0) as (y & x & W & E & _).
      + exists 0%Z, 0%Z. split; [unfold in_window; lia | calc].
      + rewrite E. unfold in_window in W. cbn zeta in W. assert (y = 0%Z) by lia. assert (x = 0%Z) by lia. subst. reflexivity.
    - destruct (C46_max_forward 3 3 1 2 2 1 2 2 24 (-1000) (fun y x _ => nth (Z.to_nat (y * 3 + x)) [1; 5; 2; 8; 3; 3; 0; 9; 9] 0) 1 1 0) as (y & x & W & E & M).
      + exists 1%Z, 1%Z. split; [unfold in_window; lia | calc].
      + rewrite E. specialize (M 2%Z 1%Z ltac:(unfold in_window; lia)). unfold in_window in W. cbn zeta in W. assert (Hy : (y = 1 \/ y = 2)%Z) by lia. assert (Hx : (x = 1 \/ x = 2)%Z) by lia. destruct Hy, Hx; subst; revert M; calc. }
  split.
  { split; [unfold in_window; lia|]. split; [unfold in_window; lia|]. split.
    - intros y x W. unfold in_window in W. cbn zeta in W. assert (Hy : (y = 1 \/ y = 2)%Z) by lia. assert (Hx : (x = 1 \/ x = 2)%Z) by lia. destruct Hy, Hx; subst; calc.
    - intros y x W B. unfold in_window in W. cbn zeta in W. assert (y = 1%Z) by lia. assert (Hx : (x = 1 \/ x = 2)%Z) by lia. destruct Hx; subst; calc. }
  split; split; calc.
Qed.
