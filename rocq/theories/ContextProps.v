(** Property theorem C16 (carrying on a sequence with a context). *)
From Coq Require Import Reals Lra Lia Arith List ZArith FunctionalExtensionality.
From Verif Require Import NumBase NumpyModel LayersModel RecurrentModel RecurrentBase NetworkModel NetworkProps NetLayersModel NetLayersProps ContextModel.
Import ListNotations.
Open Scope R_scope.

(** ** Layers that can be carried on *)
Record continues (l : rlayer) : Prop := {
  (* outputs of T steps depend on the inputs of these steps only *)
  co_ext : forall T c x x', (forall t, (t < T)%nat -> x t = x' t) ->
    r_ctx l T c x = r_ctx l T c x' /\ forall t k, (t < T)%nat -> r_run l T c x t k = r_run l T c x' t k;
  (* the first steps do not depend on the number of steps *)
  co_first : forall T1 T2 c x t k, (0 < T1)%nat -> (t < T1)%nat -> (k < length (r_out l))%nat -> r_run l (T1 + T2) c x t k = r_run l T1 c x t k;
  (* the others are those of a sequence of their own, with the context *)
  co_second : forall T1 T2 c x t k, (0 < T1)%nat -> (t < T2)%nat -> (k < length (r_out l))%nat ->
    r_run l (T1 + T2) c x (T1 + t)%nat k = r_run l T2 (r_ctx l T1 c x) (from T1 x) t k
}.

Lemma write_ext cells : forall v v' m m' a, (forall k, (k < length cells)%nat -> v k = v' k) -> (forall a, m a = m' a) -> write cells v m a = write cells v' m' a.
Proof.
  induction cells as [|c r IH]; intros v v' m m' a Hv Hm; cbn; [apply Hm|]. apply IH.
  - intros k Hk. apply Hv. cbn. lia.
  - intros b. destruct (b =? c)%nat; [apply Hv; cbn; lia | apply Hm].
Qed.
Lemma seq_forward_split ls : (forall l, In l ls -> continues l) -> forall T1 T2 cs Va V1 V2, (0 < T1)%nat ->
  (forall t a, (t < T1)%nat -> Va t a = V1 t a) -> (forall t a, (t < T2)%nat -> Va (T1 + t)%nat a = V2 t a) ->
  let full := fst (seq_forward (T1 + T2) ls cs Va) in
  let first := seq_forward T1 ls cs V1 in
  (forall t a, (t < T1)%nat -> full t a = fst first t a) /\ (forall t a, (t < T2)%nat -> full (T1 + t)%nat a = fst (seq_forward T2 ls (snd first) V2) t a).
Proof.
  induction ls as [|l r IH]; intros C T1 T2 cs Va V1 V2 HT E1 E2; cbn [seq_forward].
  - cbn. split; assumption.
  - assert (Cl := C l (or_introl eq_refl)). assert (Cr : forall l, In l r -> continues l) by (intros; apply C; now right).
    set (c := hd none cs). set (xa := fun t => read (r_in l) (Va t)). set (x1 := fun t => read (r_in l) (V1 t)). set (x2 := fun t => read (r_in l) (V2 t)).
    assert (X1 : forall t, (t < T1)%nat -> xa t = x1 t) by (intros t Ht; apply read_ext; intros; now apply E1).
    assert (X2 : forall t, (t < T2)%nat -> from T1 xa t = x2 t) by (intros t Ht; apply read_ext; intros; now apply E2).
    specialize (IH Cr T1 T2 (tl cs) (fun t => write (r_out l) (r_run l (T1 + T2) c xa t) (Va t)) (fun t => write (r_out l) (r_run l T1 c x1 t) (V1 t))
      (fun t => write (r_out l) (r_run l T2 (r_ctx l T1 c x1) x2 t) (V2 t)) HT). cbv zeta in IH.
    destruct (co_ext l Cl T1 c xa x1 X1) as [Ec Ex].
    destruct IH as [A B].
    + intros t a Ht. apply write_ext; [|intros; now apply E1]. intros k Hk. rewrite (co_first l Cl T1 T2 c xa t k HT Ht Hk). now apply Ex.
    + intros t a Ht. apply write_ext; [|intros; now apply E2]. intros k Hk. rewrite (co_second l Cl T1 T2 c xa t k HT Ht Hk), Ec. now apply (co_ext l Cl).
    + destruct (seq_forward (T1 + T2) r (tl cs) _) as [Vf csf]. destruct (seq_forward T1 r (tl cs) _) as [Vf1 cs1]. cbn [fst snd hd tl] in *.
      fold x2. destruct (seq_forward T2 r cs1 _) as [Vf2 cs2]. cbn [fst snd] in *. split; assumption.
Qed.

(** C16: a network of such layers run on T1 + T2 steps gives the outputs of the run on the
    first T1 steps followed by those of the run on the other steps with the context. *)
Theorem C16_network : forall ls T1 T2 cs V, (forall l, In l ls -> continues l) -> (0 < T1)%nat ->
  let full := fst (seq_forward (T1 + T2) ls cs V) in
  let '(V1, context) := seq_forward T1 ls cs V in
  let V2 := fst (seq_forward T2 ls context (from T1 V)) in
  (forall t a, (t < T1)%nat -> full t a = V1 t a) /\ (forall t a, (t < T2)%nat -> full (T1 + t)%nat a = V2 t a).
Proof.
  intros ls T1 T2 cs V C HT. assert (S := seq_forward_split ls C T1 T2 cs V V (from T1 V) HT (fun _ _ _ => eq_refl) (fun _ _ _ => eq_refl)). cbv zeta in *.
  destruct (seq_forward T1 ls cs V) as [V1 context]. exact S.
Qed.
Print Assumptions C16_network.
(** ... and so does feeding it in any number of pieces. *)
Theorem C16_pieces : forall lens ls cs V, (forall l, In l ls -> continues l) -> (forall T, In T lens -> (0 < T)%nat) ->
  forall t a, (t < fold_right Nat.add O lens)%nat -> seq_pieces lens ls cs V t a = fst (seq_forward (fold_right Nat.add O lens) ls cs V) t a.
Proof.
  induction lens as [|T r IH]; intros ls cs V C HT t a Ht; cbn [fold_right seq_pieces] in *; [lia|].
  set (T2 := fold_right Nat.add O r) in *.
  assert (S := C16_network ls T T2 cs V C (HT T (or_introl eq_refl))). cbv zeta in S. destruct (seq_forward T ls cs V) as [V1 cs1]. destruct S as [A B].
  destruct (Nat.ltb_spec t T) as [L|L]; [now rewrite A|]. rewrite IH; [|exact C|intros; apply HT; now right|fold T2; lia].
  fold T2. rewrite <- B by lia. f_equal. f_equal. lia.
Qed.
Print Assumptions C16_pieces.

(** ** Which layers can be carried on *)
Theorem C16_pointwise : forall f ins outs, continues (pointwise f ins outs).
Proof. intros f ins outs. constructor; cbn [pointwise r_run r_ctx r_out]; intros; auto. split; [reflexivity|]. intros. now rewrite H. Qed.
(** FullyConnected works on all steps of a sequence at once, row by row. *)
Lemma fully_connected_rows : forall a nin W b B (x : nat -> mat) r j,
  fc_forward nin a W b (flat B x) r j = flat B (fun t => fc_forward nin a W b (x t)) r j.
Proof. reflexivity. Qed.

Lemma rec_y_ext a nin n W U b x x' ctx ctx' : forall t,
  (forall s, (s <= t)%nat -> x s = x' s) -> (forall i j, (j < n)%nat -> ctx i j = ctx' i j) -> rec_y a nin n W U b x ctx t = rec_y a nin n W U b x' ctx' t.
Proof.
  induction t as [|t IH]; intros Hx Hc; cbn [rec_y].
  - rewrite Hx by lia. apply functional_extensionality; intros i. apply functional_extensionality; intros j. f_equal. unfold dot_add_mm, dot_mm. f_equal. apply Rsum_ext. intros l Hl. now rewrite Hc.
  - rewrite Hx by lia. rewrite IH by (auto; intros; apply Hx; lia). reflexivity.
Qed.
Lemma rec_y_shift a nin n W U b x ctx T1 : forall t, (0 < T1)%nat ->
  rec_y a nin n W U b x ctx (T1 + t) = rec_y a nin n W U b (from T1 x) (rec_y a nin n W U b x ctx (T1 - 1)) t.
Proof.
  intros t HT. induction t as [|t IH].
  - replace (T1 + 0)%nat with (S (T1 - 1)) by lia. cbn [rec_y]. unfold from. replace (T1 + 0)%nat with (S (T1 - 1)) by lia. reflexivity.
  - replace (T1 + S t)%nat with (S (T1 + t)) by lia. cbn [rec_y]. rewrite IH. assert (E : from T1 x (S t) = x (S (T1 + t))) by (unfold from; f_equal; lia). rewrite E. reflexivity.
Qed.
(** Recurrent on the level of the layer *)
Theorem C16_recurrent : forall a nin n W U b x ctx T1 T2, (0 < T1)%nat ->
  let full := rec_forward a nin n (T1 + T2) W U b x ctx in
  let first := rec_forward a nin n T1 W U b x ctx in
  let second := rec_forward a nin n T2 W U b (from T1 x) (first (T1 - 1)%nat) in
  (forall t, (t < T1)%nat -> full t = first t) /\ (forall t, (t < T2)%nat -> full (T1 + t)%nat = second t).
Proof.
  intros a nin n W U b x ctx T1 T2 HT full first second. unfold full, second, first, rec_forward. split; intros t Ht.
  - rewrite (proj2 (Nat.ltb_lt t (T1 + T2))), (proj2 (Nat.ltb_lt t T1)) by lia. reflexivity.
  - rewrite (proj2 (Nat.ltb_lt (T1 + t) (T1 + T2))), (proj2 (Nat.ltb_lt t T2)), (proj2 (Nat.ltb_lt (T1 - 1) T1)) by lia. now apply rec_y_shift.
Qed.
Print Assumptions C16_recurrent.
Lemma seq_ext {A} (f : vec -> A) T (x x' : nat -> vec) : (forall t, (t < T)%nat -> x t = x' t) -> forall t s, (t < T)%nat -> (s <= t)%nat -> f (x s) = f (x' s).
Proof. intros H t s Ht Hs. now rewrite H by lia. Qed.
Lemma from_map {A B} (f : A -> B) T (x : nat -> A) : (fun t => f (from T x t)) = from T (fun t => f (x t)).
Proof. reflexivity. Qed.
Theorem C16_recurrent_layer : forall a nin n W U b ins outs, continues (rec_rlayer a nin n W U b ins outs).
Proof.
  intros a nin n W U b ins os. constructor; cbn [rec_rlayer r_run r_ctx r_out].
  - intros T c x x' H. split.
    + f_equal. unfold rec_forward. destruct (Nat.ltb_spec (T - 1) T); [|reflexivity]. apply rec_y_ext; [|reflexivity]. intros s Hs. apply (seq_ext (mat_of nin) T x x' H (T - 1)); lia.
    + intros t k Ht. f_equal. unfold rec_forward. destruct (Nat.ltb_spec t T); [|reflexivity]. apply rec_y_ext; [|reflexivity]. intros s Hs. now apply (seq_ext (mat_of nin) T x x' H t).
  - intros T1 T2 c x t k HT Ht _. f_equal. now apply C16_recurrent.
  - intros T1 T2 c x t k HT Ht _. f_equal. rewrite (proj2 (C16_recurrent a nin n W U b (fun t => mat_of nin (x t)) (mat_of n c) T1 T2 HT) t Ht).
    unfold rec_forward. rewrite (proj2 (Nat.ltb_lt t T2) Ht). apply rec_y_ext; [reflexivity|]. intros i j Hj. now rewrite mat_vec.
Qed.
Print Assumptions C16_recurrent_layer.

(** LSTM *)
Lemma lstm_step_ext a nin n p x y y' c c' B : (forall i j, (i < B)%nat -> (j < n)%nat -> y i j = y' i j /\ c i j = c' i j) ->
  forall i j, (i < B)%nat -> (j < n)%nat -> sy (lstm_step a nin n p x y c) i j = sy (lstm_step a nin n p x y' c') i j /\ sCa (lstm_step a nin n p x y c) i j = sCa (lstm_step a nin n p x y' c') i j.
Proof.
  intros H i j Hi Hj. unfold lstm_step. cbn [sy sCa]. unfold dot_add_mm, dot_mm.
  assert (E : forall Q, Rsum n (fun k => y i k * trans Q k j) = Rsum n (fun k => y' i k * trans Q k j)) by (intros Q; apply Rsum_ext; intros k Hk; now rewrite (proj1 (H i k Hi Hk))).
  rewrite !E, (proj2 (H i j Hi Hj)). split; reflexivity.
Qed.
Lemma lstm_state_ext a nin n p x x' cy cy' cc cc' B t : (forall s, (s <= t)%nat -> x s = x' s) ->
  (forall i j, (i < B)%nat -> (j < n)%nat -> cy i j = cy' i j /\ cc i j = cc' i j) ->
  forall i j, (i < B)%nat -> (j < n)%nat -> sy (lstm_state a nin n p x cy cc t) i j = sy (lstm_state a nin n p x' cy' cc' t) i j /\ sCa (lstm_state a nin n p x cy cc t) i j = sCa (lstm_state a nin n p x' cy' cc' t) i j.
Proof.
  intros Hx Hc. induction t as [|t IH]; intros i j Hi Hj; cbn [lstm_state]; rewrite Hx by lia.
  - now apply lstm_step_ext with B.
  - apply lstm_step_ext with B; auto.
Qed.
Lemma lstm_state_shift a nin n p x cy cc T1 t : (0 < T1)%nat ->
  lstm_state a nin n p x cy cc (T1 + t) = lstm_state a nin n p (from T1 x) (sy (lstm_state a nin n p x cy cc (T1 - 1))) (sCa (lstm_state a nin n p x cy cc (T1 - 1))) t.
Proof.
  intros HT. induction t as [|t IH].
  - replace (T1 + 0)%nat with (S (T1 - 1)) by lia. cbn [lstm_state]. unfold from. replace (T1 + 0)%nat with (S (T1 - 1)) by lia. reflexivity.
  - replace (T1 + S t)%nat with (S (T1 + t)) by lia. cbn [lstm_state]. rewrite IH. assert (E : from T1 x (S t) = x (S (T1 + t))) by (unfold from; f_equal; lia). rewrite E. reflexivity.
Qed.
Theorem C16_lstm : forall a nin n p x cy cc T1 T2, (0 < T1)%nat ->
  let full := lstm_y a nin n (T1 + T2) p x cy cc in
  let first := lstm_y a nin n T1 p x cy cc in
  let cells := lstm_Ca a nin n T1 p x cy cc in
  let second := lstm_y a nin n T2 p (from T1 x) (first (T1 - 1)%nat) (cells (T1 - 1)%nat) in
  (forall t, (t < T1)%nat -> full t = first t) /\ (forall t, (t < T2)%nat -> full (T1 + t)%nat = second t).
Proof.
  intros a nin n p x cy cc T1 T2 HT full first cells second. unfold full, second, cells, first, lstm_y, lstm_Ca. split; intros t Ht.
  - rewrite (proj2 (Nat.ltb_lt t (T1 + T2))), (proj2 (Nat.ltb_lt t T1)) by lia. reflexivity.
  - rewrite (proj2 (Nat.ltb_lt (T1 + t) (T1 + T2))), (proj2 (Nat.ltb_lt t T2)), (proj2 (Nat.ltb_lt (T1 - 1) T1)) by lia. now rewrite lstm_state_shift.
Qed.
Print Assumptions C16_lstm.
Lemma vec_of_ext n B m m' k : (forall i j, (i < B)%nat -> (j < n)%nat -> m i j = m' i j) -> (k < B * n)%nat -> vec_of n m k = vec_of n m' k.
Proof.
  intros H Hk. assert (n <> O) by (intros ->; lia). unfold vec_of. apply H; [apply Nat.div_lt_upper_bound; lia | now apply Nat.mod_upper_bound].
Qed.
Lemma mat_cat_fst n B u v i j : (i < B)%nat -> (j < n)%nat -> mat_of n (cat (B * n) (vec_of n u) v) i j = u i j.
Proof. intros Hi Hj. rewrite <- (mat_vec n u i j Hj). unfold mat_of, cat. now rewrite (proj2 (Nat.ltb_lt _ _) (idx_lt B n i j Hi Hj)). Qed.
Lemma mat_cat_snd n B u v i j : (j < n)%nat -> mat_of n (shift (B * n) (cat (B * n) u (vec_of n v))) i j = v i j.
Proof.
  intros Hj. rewrite <- (mat_vec n v i j Hj). unfold mat_of, cat, shift. destruct (Nat.ltb_spec (B * n + (i * n + j)) (B * n)); [lia|]. f_equal. lia.
Qed.
Theorem C16_lstm_layer : forall a nin n B p ins outs, length outs = (B * n)%nat -> continues (lstm_rlayer a nin n B p ins outs).
Proof.
  intros a nin n B p ins os Lo. constructor; cbn [lstm_rlayer r_run r_ctx r_out].
  - intros T c x x' H.
    assert (E : forall t, (t < T)%nat -> lstm_state a nin n p (fun t => mat_of nin (x t)) (mat_of n c) (mat_of n (shift (B * n) c)) t = lstm_state a nin n p (fun t => mat_of nin (x' t)) (mat_of n c) (mat_of n (shift (B * n) c)) t).
    { induction t as [|t IH]; intros Ht; cbn [lstm_state]; rewrite H by lia; [reflexivity|]. rewrite IH by lia. reflexivity. }
    split.
    + f_equal; f_equal; unfold lstm_y, lstm_Ca; destruct (Nat.ltb_spec (T - 1) T); [|reflexivity| |reflexivity]; now rewrite E.
    + intros t k Ht. f_equal. unfold lstm_y. destruct (Nat.ltb_spec t T); [|reflexivity]. now rewrite E.
  - intros T1 T2 c x t k HT Ht _. f_equal. now apply C16_lstm.
  - intros T1 T2 c x t k HT Ht Hk. rewrite Lo in Hk.
    rewrite (proj2 (C16_lstm a nin n p (fun t => mat_of nin (x t)) (mat_of n c) (mat_of n (shift (B * n) c)) T1 T2 HT) t Ht).
    apply (vec_of_ext n B); [|exact Hk]. intros i j Hi Hj. unfold lstm_y at 1 3. rewrite (proj2 (Nat.ltb_lt t T2) Ht).
    apply (lstm_state_ext a nin n p _ _ _ _ _ _ B t); [reflexivity| |assumption|assumption]. intros i0 j0 Hi0 Hj0. split.
    + now rewrite mat_cat_fst.
    + now rewrite mat_cat_snd.
Qed.
Print Assumptions C16_lstm_layer.

(** ** Clockwork *)
Lemma stays_shift T1 t y : stays T1 y = false -> stays (T1 + t) y = stays t y.
Proof.
  intros H. apply stays_spec in H as [Hy [z Hz]].
  assert (E : stays (T1 + t) y = false <-> stays t y = false).
  { rewrite !stays_spec, plus_INR. split; intros [_ [w Hw]]; (split; [assumption|]).
    - exists (w - z)%Z. rewrite minus_IZR. lra.
    - exists (z + w)%Z. rewrite plus_IZR. lra. }
  destruct (stays (T1 + t) y), (stays t y); try reflexivity; exfalso; destruct E as [E1 E2]; [discriminate (E2 eq_refl) | discriminate (E1 eq_refl)].
Qed.
Lemma cw_y_shift a nin n timing W U b x ctx T1 : (0 < T1)%nat -> (forall j, (j < n)%nat -> stays T1 (timing j) = false) -> forall t i j, (j < n)%nat ->
  cw_y a nin n timing W U b x ctx (T1 + t) i j = cw_y a nin n timing W U b (from T1 x) (cw_y a nin n timing W U b x ctx (T1 - 1)) t i j.
Proof.
  intros HT Hs t. induction t as [|t IH]; intros i j Hj.
  - assert (E0 : from T1 x O = x (S (T1 - 1))) by (unfold from; f_equal; lia). replace (T1 + 0)%nat with (S (T1 - 1)) by lia. cbn [cw_y Nat.ltb Nat.leb]. rewrite E0.
    replace (S (T1 - 1)) with T1 at 1 by lia. now rewrite (Hs j Hj).
  - assert (E : from T1 x (S t) = x (S (T1 + t))) by (unfold from; f_equal; lia). replace (T1 + S t)%nat with (S (T1 + t)) by lia. cbn [cw_y Nat.ltb Nat.leb]. rewrite E.
    replace (S (T1 + t)) with (T1 + S t)%nat at 1 by lia. rewrite (stays_shift T1 (S t) (timing j) (Hs j Hj)). destruct (stays (S t) (timing j)); [now apply IH|].
    f_equal. unfold dot_add_mm, dot_mm. f_equal. apply Rsum_ext. intros l Hl. now rewrite IH.
Qed.
(** C16 is true for Clockwork when the length of the first part is a multiple of all timings ... *)
Theorem C16_clockwork_aligned_partial : forall a nin n timing W U b x ctx T1 T2, (0 < T1)%nat ->
  (forall j, (j < n)%nat -> timing j <> 0 /\ exists z, INR T1 = timing j * IZR z) ->
  let full := cw_forward a nin n timing (T1 + T2) W U b x ctx in
  let first := cw_forward a nin n timing T1 W U b x ctx in
  let second := cw_forward a nin n timing T2 W U b (from T1 x) (first (T1 - 1)%nat) in
  (forall t, (t < T1)%nat -> full t = first t) /\ (forall t i j, (t < T2)%nat -> (j < n)%nat -> full (T1 + t)%nat i j = second t i j).
Proof.
  intros a nin n timing W U b x ctx T1 T2 HT Hs full first second. unfold full, second, first, cw_forward. split.
  - intros t Ht. rewrite (proj2 (Nat.ltb_lt t (T1 + T2))), (proj2 (Nat.ltb_lt t T1)) by lia. reflexivity.
  - intros t i j Ht Hj. rewrite (proj2 (Nat.ltb_lt (T1 + t) (T1 + T2))), (proj2 (Nat.ltb_lt t T2)), (proj2 (Nat.ltb_lt (T1 - 1) T1)) by lia.
    apply cw_y_shift; [assumption| |assumption]. intros k Hk. now apply stays_spec, Hs.
Qed.
Print Assumptions C16_clockwork_aligned_partial.
(** ... but false in general: the clock starts again with every forward pass.  One unit with
    timing 2 and inputs 0, 1: at step 1 the unit keeps its output 0, but if this step is
    run as a sequence of its own the unit is active and outputs 1. *)
Theorem C16_clockwork_refuted :
  ~ (forall a nin n timing W U b x ctx T1 T2, (0 < T1)%nat -> (0 < T2)%nat ->
     let full := cw_forward a nin n timing (T1 + T2) W U b x ctx in
     let first := cw_forward a nin n timing T1 W U b x ctx in
     let second := cw_forward a nin n timing T2 W U b (from T1 x) (first (T1 - 1)%nat) in
     forall t i j, (t < T2)%nat -> (j < n)%nat -> full (T1 + t)%nat i j = second t i j).
Proof.
  intros H. specialize (H Linear 1%nat 1%nat (fun _ => 2) (fun _ _ => 1) (fun _ _ => 0) (fun _ => 0) (fun t _ _ => INR t) (fun _ _ => 0) 1%nat 1%nat ltac:(lia) ltac:(lia) O O O ltac:(lia) ltac:(lia)).
  cbn [Nat.add] in H. unfold cw_forward in H. cbn [Nat.ltb Nat.leb Nat.sub cw_y] in H.
  assert (S1 : stays 1 2 = true).
  { destruct (stays 1 2) eqn:E; [reflexivity|]. apply stays_spec in E as [_ [z Hz]]. cbn [INR] in Hz. exfalso.
    assert (IZR (2 * z) = IZR 1) by (rewrite mult_IZR; lra). apply eq_IZR in H0. lia. }
  rewrite S1 in H. unfold from, act_f, dot_add_mm, dot_mm, trans in H. cbn in H. lra.
Qed.
Print Assumptions C16_clockwork_refuted.

(** A network of an input (cell 0), a recurrent layer (cell 1), an LSTM (cell 2) and a fully connected layer
    seeing both (cell 3), fed in pieces of 2, 1 and 3 steps *)
Definition rnn (W : mat) (b : vec) (p : lstm_par) : list rlayer :=
  [ rec_rlayer Tanh 1 1 W W b [0]%nat [1]%nat; lstm_rlayer Tanh 1 1 1 p [1]%nat [2]%nat; pointwise (fc_rows Rel 2 1 W b) [1; 2]%nat [3]%nat ].
Example C16_case : forall W b p cs V t a, (t < 6)%nat -> seq_pieces [2; 1; 3]%nat (rnn W b p) cs V t a = fst (seq_forward 6 (rnn W b p) cs V) t a.
Proof.
  intros W b p cs V t a Ht. apply (C16_pieces [2; 1; 3]%nat).
  - intros l [<-|[<-|[<-|[]]]]; [apply C16_recurrent_layer | now apply C16_lstm_layer | apply C16_pointwise].
  - intros T [<-|[<-|[<-|[]]]]; lia.
  - exact Ht.
Qed.
