(** What the forward passes of the layers compute for a sequence depends on that sequence only. *)
From Coq Require Import Reals ZArith Arith List Bool Lia Lra FunctionalExtensionality.
From Verif Require Import NumBase NumpyModel LayersModel LayersProps RecurrentModel ClockLstmModel ConvModel ConvBase PoolModel NetworkModel NetLayersModel NetForwardProofs.
Import ListNotations.
Open Scope R_scope.

(** Row [i] of [A] is row [i'] of [A']. *)
Definition row (n : nat) (A : mat) (i : nat) (A' : mat) (i' : nat) : Prop := forall j, (j < n)%nat -> A i j = A' i' j.

Lemma dot_row n (A A' C : mat) i i' j : row n A i A' i' -> dot_mm n A C i j = dot_mm n A' C i' j.
Proof. intros H. unfold dot_mm. apply Rsum_ext. intros k Hk. now rewrite H. Qed.
Lemma fc_row nin n a W b A A' i i' : row nin A i A' i' -> row n (fc_forward nin a W b A) i (fc_forward nin a W b A') i'.
Proof. intros H j _. unfold fc_forward. now rewrite (dot_row _ _ _ _ _ _ _ H). Qed.

Section Sequences.
  Variables (i i' t : nat).
  (** The first t + 1 steps *)
  Definition until (n : nat) (x x' : seq) : Prop := forall s, (s <= t)%nat -> row n (x s) i (x' s) i'.
  Lemma rec_row a nin n W U b x x' ctx ctx' : until nin x x' -> row n ctx i ctx' i' -> until n (rec_y a nin n W U b x ctx) (rec_y a nin n W U b x' ctx').
  Proof.
    intros Hx Hc s. induction s as [|s IH]; intros Hs j Hj; cbn [rec_y]; unfold dot_add_mm; rewrite (dot_row _ (x _) (x' _) _ _ i' _ (Hx _ Hs)).
    - now rewrite (dot_row _ ctx ctx' _ _ i' _ Hc).
    - rewrite (dot_row n (rec_y a nin n W U b x ctx s) (rec_y a nin n W U b x' ctx' s) (trans U) i i' j); [reflexivity|]. apply IH. lia.
  Qed.
  Lemma cw_row a nin n timing W U b x x' ctx ctx' : until nin x x' -> row n ctx i ctx' i' -> until n (cw_y a nin n timing W U b x ctx) (cw_y a nin n timing W U b x' ctx').
  Proof.
    intros Hx Hc s. induction s as [|s IH]; intros Hs j Hj; cbn [cw_y Nat.ltb Nat.leb]; unfold dot_add_mm.
    - rewrite (dot_row _ (x _) (x' _) _ _ i' _ (Hx _ Hs)). now rewrite (dot_row _ ctx ctx' _ _ i' _ Hc).
    - destruct (stays _ _); [apply IH; [lia|exact Hj]|]. rewrite (dot_row _ (x _) (x' _) _ _ i' _ (Hx _ Hs)).
      rewrite (dot_row n (cw_y a nin n timing W U b x ctx s) (cw_y a nin n timing W U b x' ctx' s) (trans U) i i' j); [reflexivity|]. apply IH. lia.
  Qed.
  Lemma lstm_step_row a nin n p x x' y y' c c' : row nin x i x' i' -> row n y i y' i' -> row n c i c' i' ->
    row n (sy (lstm_step a nin n p x y c)) i (sy (lstm_step a nin n p x' y' c')) i' /\ row n (sCa (lstm_step a nin n p x y c)) i (sCa (lstm_step a nin n p x' y' c')) i'.
  Proof.
    intros Hx Hy Hc. assert (EC : row n (sCa (lstm_step a nin n p x y c)) i (sCa (lstm_step a nin n p x' y' c')) i').
    { intros j Hj. unfold lstm_step, dot_add_mm; cbn [sCa]. rewrite !(dot_row nin x x' _ _ i' _ Hx), !(dot_row n y y' _ _ i' _ Hy), (Hc j Hj). reflexivity. }
    split; [|exact EC]. intros j Hj. assert (E := EC j Hj). unfold lstm_step, dot_add_mm in *; cbn [sy sCa] in *. rewrite E, !(dot_row nin x x' _ _ i' _ Hx), !(dot_row n y y' _ _ i' _ Hy). reflexivity.
  Qed.
  Lemma lstm_row a nin n p x x' cy cy' cc cc' : until nin x x' -> row n cy i cy' i' -> row n cc i cc' i' -> forall s, (s <= t)%nat ->
    row n (sy (lstm_state a nin n p x cy cc s)) i (sy (lstm_state a nin n p x' cy' cc' s)) i' /\ row n (sCa (lstm_state a nin n p x cy cc s)) i (sCa (lstm_state a nin n p x' cy' cc' s)) i'.
  Proof.
    intros Hx Hy Hc. induction s as [|s IH]; intros Hs; cbn [lstm_state]; [apply lstm_step_row; auto|]. destruct (IH ltac:(lia)). apply lstm_step_row; auto.
  Qed.
  Lemma cl_row a nin n timing p x x' cy cy' cc cc' : until nin x x' -> row n cy i cy' i' -> row n cc i cc' i' -> forall s, (s <= t)%nat ->
    row n (sy (cl_state a nin n timing p x cy cc s)) i (sy (cl_state a nin n timing p x' cy' cc' s)) i' /\ row n (sCa (cl_state a nin n timing p x cy cc s)) i (sCa (cl_state a nin n timing p x' cy' cc' s)) i'.
  Proof.
    intros Hx Hy Hc. induction s as [|s IH]; intros Hs; cbn [cl_state]; unfold cl_step; cbn [Nat.ltb Nat.leb]; [apply lstm_step_row; auto|]. destruct (IH ltac:(lia)) as [I1 I2].
    destruct (lstm_step_row a nin n p _ _ _ _ _ _ (Hx _ Hs) I1 I2) as [J1 J2]. cbn [sy sCa]. split; intros j Hj; destruct (stays _ _); auto.
  Qed.
End Sequences.

(** ** Images *)
Lemma inside h w c y x q : (y < h -> x < w -> q < c -> (y * w + x) * c + q < h * w * c)%nat.
Proof. intros Hy Hx Hq. assert (y * w + x < h * w)%nat by nia. set (k := (y * w + x)%nat) in *. nia. Qed.
Lemma im2col_image h w c kh kw p sh sw img img' m : (forall k, (k < h * w * c)%nat -> img k = img' k) ->
  im2col h w c kh kw p sh sw img m = im2col h w c kh kw p sh sw img' m.
Proof.
  intros H. unfold im2col. match goal with |- (match ?a with _ => _ end) = (match ?b with _ => _ end) => enough (E : a = b) by now rewrite E end.
  apply loop_ext. intros _ [[m1 c1] hp] _.
  match goal with |- (match ?a with _ => _ end) = (match ?b with _ => _ end) => enough (E : a = b) by now rewrite E end.
  apply loop_ext. intros _ [[m2 c2] wp] _.
  match goal with |- (match ?a with _ => _ end) = (match ?b with _ => _ end) => enough (E : a = b) by now rewrite E end.
  apply loop_ext. intros i st _. apply loop_ext. intros j [m3 c3] _.
  destruct (in_image h w _ _) eqn:E; [|reflexivity]. f_equal. apply set_block_ext. intros q Hq. apply H.
  unfold in_image in E. rewrite !andb_true_iff, !Z.leb_le, !Z.ltb_lt in E. destruct E as [[[E1 E2] E3] E4].
  set (y := (hp + Z.of_nat i)%Z) in *. set (x := (wp + Z.of_nat j)%Z) in *. 
  rewrite Z2Nat.inj_mul, Nat2Z.id, Z2Nat.inj_add, Z2Nat.inj_mul, Nat2Z.id by nia.
  assert (Z.to_nat y < h)%nat by lia. assert (Z.to_nat x < w)%nat by lia. apply inside; assumption.
Qed.
Lemma conv_image h w c kh kw p sh sw a W b img img' : (forall k, (k < h * w * c)%nat -> img k = img' k) ->
  conv_forward h w c kh kw p sh sw a W b img = conv_forward h w c kh kw p sh sw a W b img'.
Proof. intros H. unfold conv_forward. now rewrite (im2col_image _ _ _ _ _ _ _ _ img img' _ H). Qed.
Lemma for_range_ext {S} lo hi (f g : Z -> S -> S) s : (forall z t, (lo <= z < hi)%Z -> f z t = g z t) -> for_range lo hi f s = for_range lo hi g s.
Proof. intros H. unfold for_range. apply loop_ext. intros i t Hi. apply H. lia. Qed.
Lemma img_inside w c (v v' : vec) h y x k : (0 <= y < Z.of_nat h)%Z -> (0 <= x < Z.of_nat w)%Z -> (k < c)%nat -> (forall j, (j < h * w * c)%nat -> v j = v' j) ->
  img_of w c v y x k = img_of w c v' y x k.
Proof. intros Hy Hx Hk H. unfold img_of. apply H. assert (Z.to_nat y < h)%nat by lia. assert (Z.to_nat x < w)%nat by lia. apply inside; assumption. Qed.
Lemma max_image precision mn g v v' p q c : (forall j, (j < g_cells g)%nat -> v j = v' j) -> (c < g_c g)%nat -> max_of precision mn g v p q c = max_of precision mn g v' p q c.
Proof.
  intros H Hc. unfold max_of, maxpool_forward. enough (E : max_scan (g_h g) (g_w g) (g_c g) (g_kh g) (g_kw g) (g_pad g) (g_sh g) (g_sw g) mn (img_of (g_w g) (g_c g) v) p q c = max_scan (g_h g) (g_w g) (g_c g) (g_kh g) (g_kw g) (g_pad g) (g_sh g) (g_sw g) mn (img_of (g_w g) (g_c g) v') p q c) by now rewrite E.
  unfold max_scan. apply for_range_ext. intros y st Hy. apply for_range_ext. intros x [val idx] Hx.
  now rewrite (img_inside (g_w g) (g_c g) v v' (g_h g) y x c) by (try assumption; unfold y_min, y_max, x_min, x_max in *; lia).
Qed.
Lemma avg_image g v v' p q c : (forall j, (j < g_cells g)%nat -> v j = v' j) -> (c < g_c g)%nat -> avg_of g v p q c = avg_of g v' p q c.
Proof.
  intros H Hc. unfold avg_of, avgpool_forward. f_equal. apply for_range_ext. intros y st Hy. apply for_range_ext. intros x val Hx.
  now rewrite (img_inside (g_w g) (g_c g) v v' (g_h g) y x c) by (try assumption; unfold y_min, y_max, x_min, x_max in *; lia).
Qed.
Lemma of_out_ext g (m m' : nat -> nat -> nat -> R) k : (forall p q c, (c < g_c g)%nat -> m p q c = m' p q c) -> (k < g_oh g * g_ow g * g_c g)%nat -> of_out g m k = of_out g m' k.
Proof. intros H Hk. unfold of_out, of_img. apply H. apply Nat.mod_upper_bound. intros E. rewrite E in Hk. lia. Qed.
