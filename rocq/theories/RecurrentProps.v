(** Back-propagation through time of the Recurrent and the Clockwork layer: C42, C44. *)
From Coq Require Import Reals Lra Lia Arith List.
From Verif Require Import NumBase NumpyModel NumpyProps LayersProps RecurrentModel RecurrentBase.
Import ListNotations.
Open Scope R_scope.

(** [x] is a curve of sequences *)
Definition curve3 (s0 : R) (T1 B n : nat) (x : R -> seq) (x' : seq) : Prop := forall t, (t < T1)%nat -> curve2 s0 B n (fun s => x s t) (x' t).

(** ** The common core: units that at some steps keep their value *)
Section Core.
Variables (a : act) (nin n T1 B : nat) (keep : nat -> nat -> bool).
Hypothesis keep0 : forall j, keep O j = false.
Definition before (y : seq) (ctx : mat) (t : nat) : mat := match t with O => ctx | S k => y k end.

Section Adjoint.
Variables (W R : mat) (x y : seq) (ctx : mat).
Variables (x' y' : seq) (W' R' : mat) (b' : vec).
Variables (dout dA dB : seq).
Definition pre' (t : nat) : mat := fun i j =>
  dot_mm nin (x' t) (trans W) i j + dot_mm nin (x t) (trans W') i j +
  (dot_mm n (before y' (fun _ _ => 0) t) (trans R) i j + dot_mm n (before y ctx t) (trans R') i j) + b' j.
Hypothesis Hy' : forall t i j, (t < T1)%nat -> (i < B)%nat -> (j < n)%nat ->
  y' t i j = if keep t j then before y' (fun _ _ => 0) t i j else act_deriv a (y t i j) 1 * pre' t i j.
Hypothesis HdA : forall t i j, (t < T1)%nat -> (i < B)%nat -> (j < n)%nat ->
  dA t i j = if keep t j then 0 else act_deriv a (y t i j) (dB t i j).
Hypothesis HdB : forall t i j, (S t < T1)%nat -> (i < B)%nat -> (j < n)%nat ->
  dB t i j = dout t i j + (if keep (S t) j then dB (S t) i j else 0) + dot_mm n (dA (S t)) R i j.
Hypothesis HdBT : forall t i j, (S t = T1)%nat -> (i < B)%nat -> (j < n)%nat -> dB t i j = dout t i j.

Lemma core_adjoint :
  Rsum T1 (fun t => pair2 B n (dout t) (y' t)) =
  Rsum T1 (fun t => pair2 B nin (dot_mm n (dA t) W) (x' t) + pair2 n nin (dot_mm B (trans (dA t)) (x t)) W' +
                    pair2 n n (dot_mm B (trans (dA t)) (before y ctx t)) R' + pair1 n (sum0 B (dA t)) b').
Proof.
  set (kB := fun t i j => if keep t j then dB t i j else 0).
  set (b := fun t => if (t <? T1)%nat then pair2 B n (dot_mm n (dA t) R) (before y' (fun _ _ => 0) t) + pair2 B n (kB t) (before y' (fun _ _ => 0) t) else 0).
  assert (b0 : b O = 0).
  { unfold b. destruct (0 <? T1)%nat; [|reflexivity]. cbn [before]. replace (pair2 B n _ (fun _ _ => 0)) with 0; [|symmetry; apply Rsum_zero; intros; apply Rsum_zero; intros; lra].
    replace (pair2 B n (kB O) (fun _ _ => 0)) with 0; [lra|]. symmetry; apply Rsum_zero; intros; apply Rsum_zero; intros; lra. }
  rewrite (telescope T1 (fun t => pair2 B n (dB t) (y' t)) b (fun t => pair2 B nin (dot_mm n (dA t) W) (x' t) + pair2 n nin (dot_mm B (trans (dA t)) (x t)) W' +
                    pair2 n n (dot_mm B (trans (dA t)) (before y ctx t)) R' + pair1 n (sum0 B (dA t)) b')).
  - rewrite b0. lra.
  - intros t Ht. unfold b. rewrite (proj2 (Nat.ltb_lt t T1) Ht).
    rewrite <- (adj_in B n nin (dA t) W (x' t)), <- (adj_in B n n (dA t) R (before y' (fun _ _ => 0) t)), <- (adj_W B n nin (dA t) (x t) W'), <- (adj_W B n n (dA t) (before y ctx t) R'), <- (adj_b B n (dA t) b').
    transitivity (pair2 B n (dA t) (pre' t) + pair2 B n (kB t) (before y' (fun _ _ => 0) t)).
    + rewrite pair2_plus. apply Rsum2_ext. intros i j Hi Hj. rewrite (Hy' t i j), (HdA t i j) by assumption. unfold kB.
      destruct (keep t j); [lra|]. rewrite (act_deriv_linear a (y t i j) (dB t i j)). lra.
    + unfold pre'. rewrite !pair2_add_r. lra.
  - intros t Ht. unfold b. destruct (Nat.ltb_spec (S t) T1) as [L|L].
    + cbn [before]. rewrite pair2_plus. unfold pair2. rewrite <- Rsum_plus. apply Rsum_ext; intros i Hi. rewrite <- Rsum_plus. apply Rsum_ext; intros j Hj.
      rewrite (HdB t i j) by assumption. unfold kB. lra.
    + rewrite Rplus_0_r. apply pair2_ext. intros i j Hi Hj. rewrite (HdBT t i j) by (assumption || lia). reflexivity.
  - unfold b. now rewrite Nat.ltb_irrefl.
Qed.
End Adjoint.

(** The outputs are differentiable, with the derivatives assumed above. *)
Section Forward.
Variables (s0 : R) (W U : R -> mat) (bias : R -> vec) (x y : R -> seq) (ctx : mat).
Variables (W' R' : mat) (b' : vec) (x' : seq).
Hypothesis HW : curve2 s0 n nin W W'.
Hypothesis HU : curve2 s0 n n U R'.
Hypothesis Hb : curve1 s0 n bias b'.
Hypothesis Hx : curve3 s0 T1 B nin x x'.
Definition pre (s : R) (t : nat) : mat := fun i j =>
  dot_mm nin (x s t) (trans (W s)) i j + bias s j + dot_mm n (before (y s) ctx t) (trans (U s)) i j.
Hypothesis Hy : forall s t i j, (t < T1)%nat -> y s t i j = if keep t j then before (y s) ctx t i j else act_f a (pre s t i j).
Hypothesis HK : a = Rel -> forall t i j, (t < T1)%nat -> (i < B)%nat -> (j < n)%nat -> pre s0 t i j <> 0.
Fixpoint y' (t : nat) : mat := fun i j =>
  let b4 := match t with O => fun _ _ => 0 | S k => y' k end in
  if keep t j then b4 i j else act_deriv a (y s0 t i j) 1 *
    (dot_mm nin (x' t) (trans (W s0)) i j + dot_mm nin (x s0 t) (trans W') i j +
     (dot_mm n b4 (trans (U s0)) i j + dot_mm n (before (y s0) ctx t) (trans R') i j) + b' j).
Lemma y'_eq t i j : y' t i j = if keep t j then before y' (fun _ _ => 0) t i j else act_deriv a (y s0 t i j) 1 * pre' (W s0) (U s0) (x s0) (y s0) ctx x' y' W' R' b' t i j.
Proof. destruct t; reflexivity. Qed.
Lemma core_forward t : (t < T1)%nat -> curve2 s0 B n (fun s => y s t) (y' t).
Proof.
  induction t as [|t IH]; intros Ht.
  - intros i j Hi Hj. rewrite y'_eq, keep0. apply (D_ext s0 (fun s => act_f a (pre s O i j)) _ (act_deriv a (act_f a (pre s0 O i j)) 1 * pre' (W s0) (U s0) (x s0) (y s0) ctx x' y' W' R' b' O i j)).
    + intros s. rewrite Hy by assumption. now rewrite keep0.
    + rewrite (Hy s0) by assumption. now rewrite keep0.
    + apply (D_act a s0 (fun s => pre s O i j)); [|intros; now apply HK]. unfold pre, pre'. cbn [before].
      apply (D_eq _ _ (dot_mm nin (x' O) (trans (W s0)) i j + dot_mm nin (x s0 O) (trans W') i j + b' j + (dot_mm n (fun _ _ => 0) (trans (U s0)) i j + dot_mm n ctx (trans R') i j))); [|lra].
      apply (D_plus s0 (fun s => dot_mm nin (x s O) (trans (W s)) i j + bias s j) (fun s => dot_mm n ctx (trans (U s)) i j)).
      * apply (D_plus s0 (fun s => dot_mm nin (x s O) (trans (W s)) i j) (fun s => bias s j)); [apply (D_dot s0 B nin n (fun s => x s O) W (x' O) W'); auto | now apply Hb].
      * apply (D_dot s0 B n n (fun _ => ctx) U (fun _ _ => 0) R'); auto. intros ? ? _ _. apply D_const.
  - specialize (IH ltac:(lia)). intros i j Hi Hj. rewrite y'_eq. destruct (keep (S t) j) eqn:K.
    + cbn [before]. apply (D_ext s0 (fun s => y s t i j) _ (y' t i j)); [|reflexivity | now apply IH]. intros s. rewrite (Hy s (S t)) by assumption. now rewrite K.
    + apply (D_ext s0 (fun s => act_f a (pre s (S t) i j)) _ (act_deriv a (act_f a (pre s0 (S t) i j)) 1 * pre' (W s0) (U s0) (x s0) (y s0) ctx x' y' W' R' b' (S t) i j)).
      * intros s. rewrite (Hy s (S t)) by assumption. now rewrite K.
      * rewrite (Hy s0 (S t)) by assumption. now rewrite K.
      * apply (D_act a s0 (fun s => pre s (S t) i j)); [|intros; now apply HK]. unfold pre, pre'. cbn [before].
        apply (D_eq _ _ (dot_mm nin (x' (S t)) (trans (W s0)) i j + dot_mm nin (x s0 (S t)) (trans W') i j + b' j + (dot_mm n (y' t) (trans (U s0)) i j + dot_mm n (y s0 t) (trans R') i j))); [|lra].
        apply (D_plus s0 (fun s => dot_mm nin (x s (S t)) (trans (W s)) i j + bias s j) (fun s => dot_mm n (y s t) (trans (U s)) i j)).
        -- apply (D_plus s0 (fun s => dot_mm nin (x s (S t)) (trans (W s)) i j) (fun s => bias s j)); [apply (D_dot s0 B nin n (fun s => x s (S t)) W (x' (S t)) W'); auto | now apply Hb].
        -- apply (D_dot s0 B n n (fun s => y s t) U (y' t) R'); auto.
Qed.
End Forward.
End Core.

(** ** Gradients from flattened sequences *)
Lemma dot_add_sub n (a b o : mat) i j : dot_add_mm n a b o i j - o i j = dot_mm n a b i j.
Proof. unfold dot_add_mm. lra. Qed.
Lemma flat_din T1 B n nin (dA : seq) (W : mat) (din : mat) (x' : seq) :
  pair2 (T1 * B) nin (msub (dot_add_mm n (flat B dA) W din) din) (flat B x') = Rsum T1 (fun t => pair2 B nin (dot_mm n (dA t) W) (x' t)).
Proof.
  rewrite <- (pair2_flat T1 B nin (fun t => dot_mm n (dA t) W) x'). apply pair2_ext. intros i j _ _. unfold msub. rewrite dot_add_sub. reflexivity.
Qed.
Lemma flat_dW T1 B n nin (dA x : seq) (dW W' : mat) :
  pair2 n nin (msub (dot_add_mm (T1 * B) (trans (flat B dA)) (flat B x) dW) dW) W' = Rsum T1 (fun t => pair2 n nin (dot_mm B (trans (dA t)) (x t)) W').
Proof.
  rewrite <- pair2_sum. apply pair2_ext. intros i j _ _. unfold msub. now rewrite dot_add_sub, dot_flat.
Qed.
Lemma flat_db T1 B n (dA : seq) (db b' : vec) :
  pair1 n (fun j => db j + sum0 (T1 * B) (flat B dA) j - db j) b' = Rsum T1 (fun t => pair1 n (sum0 B (dA t)) b').
Proof. rewrite <- pair1_sum. apply Rsum_ext. intros j _. rewrite sum0_flat. f_equal. lra. Qed.
(** recurrent weights: dHa[1:-1] with outputs[:-2], and dHa[0] with the context *)
Lemma flat_dR T B n (dA y : seq) (ctx : mat) (out : seq) (dR R' : mat) :
  (forall t, (t < T)%nat -> out t = y t) -> out (S T) = ctx ->
  pair2 n n (msub (dot_add_mm B (trans (dA O)) (out (S T)) (dot_add_mm (T * B) (trans (flat B (tail dA))) (flat B out) dR)) dR) R'
  = Rsum (S T) (fun t => pair2 n n (dot_mm B (trans (dA t)) (before y ctx t)) R').
Proof.
  intros Ho Hc. rewrite Rsum_shift. cbn [before]. rewrite <- pair2_sum, <- pair2_add_l. apply pair2_ext. intros i j _ _. unfold msub. f_equal. rewrite Hc.
  assert (E := dot_flat T B (tail dA) out i j).
  transitivity (dot_mm B (trans (dA O)) ctx i j + dot_mm (T * B) (trans (flat B (tail dA))) (flat B out) i j); [unfold dot_add_mm; lra|]. rewrite E. f_equal.
  apply Rsum_ext. intros t Ht. now rewrite Ho.
Qed.

(** ** C42 *)
Lemma rec_y_eq a nin n W R b x ctx t i j :
  rec_y a nin n W R b x ctx t i j = act_f a (dot_mm nin (x t) (trans W) i j + b j + dot_mm n (before (rec_y a nin n W R b x ctx) ctx t) (trans R) i j).
Proof. destruct t; reflexivity. Qed.
(** For every number of steps, batch size and sizes, and whatever the context: exact
    derivatives with respect to inputs, weights, recurrent weights and bias.  For rel no
    pre-activation may be at the kink. *)
Theorem C42_exact : forall a nin n T B s0 (W U : R -> mat) (b : R -> vec) (x : R -> seq) ctx W' R' b' x' dout din dW dR db,
  let T1 := S T in
  curve2 s0 n nin W W' -> curve2 s0 n n U R' -> curve1 s0 n b b' -> curve3 s0 T1 B nin x x' ->
  let y := fun s => rec_forward a nin n T1 (W s) (U s) (b s) (x s) ctx in
  (a = Rel -> forall t i j, (t < T1)%nat -> (i < B)%nat -> (j < n)%nat ->
     Rsum nin (fun k => x s0 t i k * W s0 j k) + b s0 j + Rsum n (fun k => y s0 (prev T1 t) i k * U s0 j k) <> 0) ->
  let '(din1, dW1, dR1, db1) := rec_backward a n T1 B (W s0) (U s0) (x s0) (y s0) dout din dW dR db in
  D s0 (fun s => Rsum T1 (fun t => pair2 B n (dout t) (y s t)))
       (pair2 (T1 * B) nin (msub din1 din) (flat B x') + pair2 n nin (msub dW1 dW) W' +
        pair2 n n (msub dR1 dR) R' + pair1 n (fun j => db1 j - db j) b').
Proof.
  intros a nin n T B s0 W U b x ctx W' R' b' x' dout din dW dR db T1 HW HR Hb Hx y HK. unfold rec_backward.
  set (yy := fun s => rec_y a nin n (W s) (U s) (b s) (x s) ctx).
  assert (Ey : forall s t, (t < T1)%nat -> y s t = yy s t) by (intros s t Ht; unfold y, rec_forward; now rewrite (proj2 (Nat.ltb_lt t T1) Ht)).
  assert (Ec : forall s, y s T1 = ctx) by (intros s; unfold y, rec_forward; now rewrite Nat.ltb_irrefl).
  assert (Eprev : forall s t, (t < T1)%nat -> y s (prev T1 t) = before (yy s) ctx t).
  { intros s [|t] Ht; cbn [prev before]; [apply Ec | apply Ey; lia]. }
  set (K := fun (_ _ : nat) => false).
  assert (Hy : forall s t i j, (t < T1)%nat -> yy s t i j = if K t j then before (yy s) ctx t i j else act_f a (pre nin n W U b x yy ctx s t i j)) by (intros s t i j _; apply rec_y_eq).
  assert (HK' : a = Rel -> forall t i j, (t < T1)%nat -> (i < B)%nat -> (j < n)%nat -> pre nin n W U b x yy ctx s0 t i j <> 0).
  { intros Ha t i j Ht Hi Hj. unfold pre. rewrite <- (Eprev s0 t Ht). exact (HK Ha t i j Ht Hi Hj). }
  set (yd := y' a nin n K s0 W U x yy ctx W' R' b' x').
  replace (T1 - 1)%nat with T by (unfold T1; lia).
  set (dA := fun t => rec_dHa a n (U s0) (y s0) dout T (T - t)).
  set (dB := fun t => if (t =? T)%nat then dout t else dot_add_mm n (dA (S t)) (U s0) (dout t)).
  apply (D_ext s0 (fun s => Rsum T1 (fun t => pair2 B n (dout t) (yy s t))) _ (Rsum T1 (fun t => pair2 B n (dout t) (yd t)))).
  - intros s. apply Rsum_ext. intros t Ht. now rewrite (Ey s t Ht).
  - rewrite (core_adjoint a nin n T1 B K (W s0) (U s0) (x s0) (yy s0) ctx x' yd W' R' b' dout dA dB).
    + rewrite !Rsum_plus. rewrite (flat_din T1 B n nin dA), (flat_dW T1 B n nin dA), (flat_db T1 B n dA).
      rewrite (flat_dR T B n dA (yy s0) ctx (y s0)); [reflexivity | intros t Ht; apply Ey; unfold T1; lia | apply Ec].
    + intros t i j Ht Hi Hj. apply y'_eq.
    + intros t i j Ht Hi Hj. unfold K, dB, dA. rewrite <- (Ey s0 t Ht). destruct (Nat.eqb_spec t T) as [->|N].
      * rewrite Nat.sub_diag. reflexivity.
      * replace (T - t)%nat with (S (T - S t)) by (unfold T1 in Ht; lia). cbn [rec_dHa]. replace (T - S (T - S t))%nat with t by (unfold T1 in Ht; lia). reflexivity.
    + intros t i j Ht Hi Hj. unfold K, dB. destruct (Nat.eqb_spec t T) as [->|N]; [unfold T1 in Ht; lia|]. unfold dot_add_mm. lra.
    + intros t i j Ht Hi Hj. unfold dB. destruct (Nat.eqb_spec t T) as [->|N]; [reflexivity | unfold T1 in Ht; lia].
  - apply (D_sum3 s0 T1 B n yy yd dout). intros t i j Ht Hi Hj.
    exact (core_forward a nin n T1 B K (fun _ => eq_refl) s0 W U b x yy ctx W' R' b' x' HW HR Hb Hx Hy HK' t Ht i j Hi Hj).
Qed.
Print Assumptions C42_exact.
(** Two steps of a linear unit: y0 = 2*3 + 5*1 = 11 (context 1, R = 5), y1 = 2*3 + 5*11 = 61;
    with deltas 0 and 1 the derivative by R is y0 + 5 * context = 16, by W it is 3 + 5*3. *)
Example C42_case :
  let y := rec_forward Linear 1 1 2 (fun _ _ => 2) (fun _ _ => 5) (fun _ => 0) (fun _ _ _ => 3) (fun _ _ => 1) in
  let '(din, dW, dR, db) := rec_backward Linear 1 2 1 (fun _ _ => 2) (fun _ _ => 5) (fun _ _ _ => 3) y (fun t _ _ => INR t) (fun _ _ => 0) (fun _ _ => 0) (fun _ _ => 0) (fun _ => 0) in
  y O O O = 11 /\ y 1%nat O O = 61 /\ dR O O = 16 /\ dW O O = 18 /\ din O O = 10.
Proof. cbn. unfold dot_mm, dot_add_mm, sum0, trans, flat, tail, rec_forward. cbn. unfold dot_mm, dot_add_mm, trans. cbn. repeat split; lra. Qed.

(** ** C44 *)
Lemma Int_part_IZR k : Int_part (IZR k) = k.
Proof.
  destruct (base_Int_part (IZR k)) as [A B]. assert (A' : (Int_part (IZR k) <= k)%Z) by now apply le_IZR.
  assert (B' : (k < Int_part (IZR k) + 1)%Z) by (apply lt_IZR; rewrite plus_IZR; lra). lia.
Qed.
Lemma trunc_IZR k : trunc (IZR k) = k.
Proof.
  unfold trunc. destruct (Rle_dec 0 (IZR k)); [apply Int_part_IZR|]. rewrite <- opp_IZR, Int_part_IZR. lia.
Qed.
(** A unit is updated exactly at the multiples of its timing value. *)
Theorem C44_ticks : forall t timing, stays t timing = false <-> timing <> 0 /\ exists k : Z, INR t = IZR k * timing.
Proof.
  intros t timing. unfold stays. destruct (Req_EM_T timing 0) as [->|N]; [split; [discriminate | intros [H _]; lra]|].
  destruct (Req_EM_T (fmod (INR t) timing) 0) as [E|E].
  - split; [|reflexivity]. intros _. split; [assumption|]. exists (trunc (INR t / timing)). unfold fmod in E. lra.
  - split; [discriminate|]. intros [_ [k Hk]]. exfalso. apply E. unfold fmod. replace (INR t / timing) with (IZR k) by (rewrite Hk; field; assumption). rewrite trunc_IZR. lra.
Qed.
Print Assumptions C44_ticks.
Definition cw_keep (timing : vec) (t j : nat) : bool := if (0 <? t)%nat then stays t (timing j) else false.
Lemma cw_y_eq a nin n timing W R b x ctx t i j :
  cw_y a nin n timing W R b x ctx t i j =
  if cw_keep timing t j then before (cw_y a nin n timing W R b x ctx) ctx t i j
  else act_f a (dot_mm nin (x t) (trans W) i j + b j + dot_mm n (before (cw_y a nin n timing W R b x ctx) ctx t) (trans R) i j).
Proof. destruct t; reflexivity. Qed.
(** Otherwise it keeps its output, whatever the inputs and the other units; when it is
    updated it does what a unit of the Recurrent layer does. *)
Theorem C44_forward : forall a nin n timing T1 W R b x ctx t i j, (t < T1)%nat ->
  let y := cw_forward a nin n timing T1 W R b x ctx in
  let new := act_f a (Rsum nin (fun k => x t i k * W j k) + b j + Rsum n (fun k => y (prev T1 t) i k * R j k)) in
  (t = O -> y t i j = new) /\
  ((exists k : Z, INR t = IZR k * timing j) -> timing j <> 0 -> y t i j = new) /\
  ((0 < t)%nat -> ~ (exists k : Z, INR t = IZR k * timing j) -> y t i j = y (prev T1 t) i j).
Proof.
  intros a nin n timing T1 W R b x ctx t i j Ht y new.
  assert (Ep : y (prev T1 t) = before (cw_y a nin n timing W R b x ctx) ctx t).
  { unfold y, cw_forward. destruct t as [|t]; cbn [prev before]; [now rewrite Nat.ltb_irrefl|]. destruct (Nat.ltb_spec t T1); [reflexivity | lia]. }
  assert (Ey : y t i j = if cw_keep timing t j then before (cw_y a nin n timing W R b x ctx) ctx t i j else new).
  { unfold y at 1, cw_forward. rewrite (proj2 (Nat.ltb_lt t T1) Ht), cw_y_eq. unfold new. now rewrite Ep. }
  rewrite Ey. split; [|split].
  - intros ->. reflexivity.
  - intros Hk N. unfold cw_keep. destruct (0 <? t)%nat; [|reflexivity]. now rewrite (proj2 (C44_ticks t (timing j)) (conj N Hk)).
  - intros H0 Hk. unfold cw_keep. rewrite (proj2 (Nat.ltb_lt 0 t) H0). destruct (stays t (timing j)) eqn:E; [now rewrite Ep|]. apply C44_ticks in E. destruct E as [_ E]. contradiction.
Qed.
Print Assumptions C44_forward.

(** The backward pass is exact, for all timings, also with a context. *)
Theorem C44_exact : forall a nin n timing T B s0 (W U : R -> mat) (b : R -> vec) (x : R -> seq) ctx W' U' b' x' dout din dW dU db,
  let T1 := S T in
  curve2 s0 n nin W W' -> curve2 s0 n n U U' -> curve1 s0 n b b' -> curve3 s0 T1 B nin x x' ->
  let y := fun s => cw_forward a nin n timing T1 (W s) (U s) (b s) (x s) ctx in
  (a = Rel -> forall t i j, (t < T1)%nat -> (i < B)%nat -> (j < n)%nat ->
     Rsum nin (fun k => x s0 t i k * W s0 j k) + b s0 j + Rsum n (fun k => y s0 (prev T1 t) i k * U s0 j k) <> 0) ->
  let '(din1, dW1, dU1, db1) := cw_backward a n timing T1 B (W s0) (U s0) (x s0) (y s0) dout din dW dU db in
  D s0 (fun s => Rsum T1 (fun t => pair2 B n (dout t) (y s t)))
       (pair2 (T1 * B) nin (msub din1 din) (flat B x') + pair2 n nin (msub dW1 dW) W' +
        pair2 n n (msub dU1 dU) U' + pair1 n (fun j => db1 j - db j) b').
Proof.
  intros a nin n timing T B s0 W U b x ctx W' U' b' x' dout din dW dU db T1 HW HU Hb Hx y HK. unfold cw_backward.
  set (yy := fun s => cw_y a nin n timing (W s) (U s) (b s) (x s) ctx).
  assert (Ey : forall s t, (t < T1)%nat -> y s t = yy s t) by (intros s t Ht; unfold y, cw_forward; now rewrite (proj2 (Nat.ltb_lt t T1) Ht)).
  assert (Ec : forall s, y s T1 = ctx) by (intros s; unfold y, cw_forward; now rewrite Nat.ltb_irrefl).
  assert (Eprev : forall s t, (t < T1)%nat -> y s (prev T1 t) = before (yy s) ctx t).
  { intros s [|t] Ht; cbn [prev before]; [apply Ec | apply Ey; lia]. }
  set (K := cw_keep timing). assert (K0 : forall j, K O j = false) by reflexivity.
  assert (Hy : forall s t i j, (t < T1)%nat -> yy s t i j = if K t j then before (yy s) ctx t i j else act_f a (pre nin n W U b x yy ctx s t i j)) by (intros s t i j _; apply cw_y_eq).
  assert (HK' : a = Rel -> forall t i j, (t < T1)%nat -> (i < B)%nat -> (j < n)%nat -> pre nin n W U b x yy ctx s0 t i j <> 0).
  { intros Ha t i j Ht Hi Hj. unfold pre. rewrite <- (Eprev s0 t Ht). exact (HK Ha t i j Ht Hi Hj). }
  set (yd := y' a nin n K s0 W U x yy ctx W' U' b' x').
  replace (T1 - 1)%nat with T by (unfold T1; lia).
  set (dA := cw_dHa a n timing (U s0) (y s0) dout T).
  set (dB := fun t => snd (cw_d a n timing (U s0) (y s0) dout T (T - t))).
  apply (D_ext s0 (fun s => Rsum T1 (fun t => pair2 B n (dout t) (yy s t))) _ (Rsum T1 (fun t => pair2 B n (dout t) (yd t)))).
  - intros s. apply Rsum_ext. intros t Ht. now rewrite (Ey s t Ht).
  - rewrite (core_adjoint a nin n T1 B K (W s0) (U s0) (x s0) (yy s0) ctx x' yd W' U' b' dout dA dB).
    + rewrite !Rsum_plus. rewrite (flat_din T1 B n nin dA), (flat_dW T1 B n nin dA), (flat_db T1 B n dA).
      rewrite (flat_dR T B n dA (yy s0) ctx (y s0)); [reflexivity | intros t Ht; apply Ey; unfold T1; lia | apply Ec].
    + intros t i j Ht Hi Hj. apply y'_eq.
    + intros t i j Ht Hi Hj. rewrite <- (Ey s0 t Ht). unfold dA, cw_dHa, dB, K, cw_keep.
      assert (E : fst (cw_d a n timing (U s0) (y s0) dout T (T - t)) i j = act_deriv a (y s0 t i j) (snd (cw_d a n timing (U s0) (y s0) dout T (T - t)) i j)).
      { destruct (Nat.eq_dec t T) as [->|N]; [rewrite Nat.sub_diag; reflexivity|]. replace (T - t)%nat with (S (T - S t)) by (unfold T1 in Ht; lia). cbn [cw_d].
        destruct (cw_d a n timing (U s0) (y s0) dout T (T - S t)) as [d1 d2]. cbn [fst snd]. replace (T - S (T - S t))%nat with t by (unfold T1 in Ht; lia). reflexivity. }
      destruct (0 <? t)%nat; [destruct (stays t (timing j)); [reflexivity | exact E] | exact E].
    + intros t i j Ht Hi Hj. unfold dA, dB, K, cw_keep. replace (T - t)%nat with (S (T - S t)) by (unfold T1 in Ht; lia). cbn [cw_d].
      replace (T - S (T - S t))%nat with t by (unfold T1 in Ht; lia). cbn [Nat.ltb Nat.leb].
      unfold cw_dHa. cbn [Nat.ltb Nat.leb]. destruct (cw_d a n timing (U s0) (y s0) dout T (T - S t)) as [d1 d2]. cbn [fst snd]. unfold dot_add_mm. destruct (stays (S t) (timing j)); lra.
    + intros t i j Ht Hi Hj. unfold dB. replace t with T by (unfold T1 in Ht; lia). rewrite Nat.sub_diag. reflexivity.
  - apply (D_sum3 s0 T1 B n yy yd dout). intros t i j Ht Hi Hj.
    exact (core_forward a nin n T1 B K K0 s0 W U b x yy ctx W' U' b' x' HW HU Hb Hx Hy HK' t Ht i j Hi Hj).
Qed.
Print Assumptions C44_exact.
(** A unit with timing 2 at steps 0, 1, 2 (linear, W = 1, R = 0, inputs 5, 6, 7). *)
Example C44_case : let y := cw_forward Linear 1 1 (fun _ => 2) 3 (fun _ _ => 1) (fun _ _ => 0) (fun _ => 0) (fun t _ _ => 5 + INR t) (fun _ _ => 9) in
  y O O O = 5 /\ y 1%nat O O = 5 /\ y 2%nat O O = 7.
Proof.
  assert (S1 : stays 1 2 = true).
  { destruct (stays 1 2) eqn:E; [reflexivity|]. apply C44_ticks in E. destruct E as [_ [k Hk]]. cbn in Hk. rewrite <- mult_IZR in Hk. apply eq_IZR in Hk. lia. }
  assert (S2 : stays 2 2 = false) by (apply C44_ticks; split; [lra | exists 1%Z; cbn; lra]).
  unfold cw_forward. cbn [Nat.ltb Nat.leb cw_y]. rewrite S1, S2. unfold dot_add_mm, dot_mm, trans, act_f. cbn. repeat split; lra.
Qed.
