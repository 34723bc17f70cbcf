(** The ClockworkLstm layer: C58. *)
From Coq Require Import Reals Lra Lia Arith List Bool.
From Verif Require Import NumBase NumpyModel NumpyProps LayersProps RecurrentModel RecurrentBase RecurrentProps LstmProps ClockLstmModel.
Import ListNotations.
Open Scope R_scope.

Section ClockLstm.
Variables (a : act) (nin n B : nat) (timing : vec).
Hypothesis Ht : forall j, (j < n)%nat -> timing j <> 0.
Notation sig' y := (act_deriv Sigmoid y 1).
Notation gate' := (gate' nin n).

(** ** Forward: which units stay *)
Definition off (t j : nat) : bool := ((0 <? t)%nat && stays t (timing j))%bool.
Lemma stays_0 y : y <> 0 -> stays 0 y = false.
Proof. intros H. apply stays_spec. split; [assumption|]. exists 0%Z. cbn. lra. Qed.
Lemma stays_off t j : (j < n)%nat -> stays t (timing j) = off t j.
Proof. intros Hj. unfold off. destruct t as [|t]; [cbn; now apply stays_0, Ht | reflexivity]. Qed.
Lemma cl_step_Ca t p x y c i j : sCa (cl_step a nin n timing t p x y c) i j = if off t j then c i j else sCa (lstm_step a nin n p x y c) i j.
Proof. unfold cl_step, off. destruct (0 <? t)%nat; reflexivity. Qed.
Lemma cl_step_y t p x y c i j : sy (cl_step a nin n timing t p x y c) i j = if off t j then y i j else sy (lstm_step a nin n p x y c) i j.
Proof. unfold cl_step, off. destruct (0 <? t)%nat; reflexivity. Qed.
Ltac same_field := unfold cl_step; destruct (0 <? _)%nat; reflexivity.
Lemma cl_step_Za t p x y c : sZa (cl_step a nin n timing t p x y c) = sZa (lstm_step a nin n p x y c). Proof. same_field. Qed.
Lemma cl_step_Zb t p x y c : sZb (cl_step a nin n timing t p x y c) = sZb (lstm_step a nin n p x y c). Proof. same_field. Qed.
Lemma cl_step_Ib t p x y c : sIb (cl_step a nin n timing t p x y c) = sIb (lstm_step a nin n p x y c). Proof. same_field. Qed.
Lemma cl_step_Fb t p x y c : sFb (cl_step a nin n timing t p x y c) = sFb (lstm_step a nin n p x y c). Proof. same_field. Qed.
Lemma cl_step_Ob t p x y c : sOb (cl_step a nin n timing t p x y c) = sOb (lstm_step a nin n p x y c). Proof. same_field. Qed.
Lemma cl_step_Cb t p x y c : sCb (cl_step a nin n timing t p x y c) = sCb (lstm_step a nin n p x y c). Proof. same_field. Qed.

(** ** One step backwards is the adjoint of the derivative of the step *)
Definition sel (t : nat) (u v : mat) : mat := fun i j => if off t j then u i j else v i j.
Definition cl_ext_c (t : nat) (p : lstm_par) (nx : cl_d) (Fn : mat) : mat := fun i j =>
  carried timing (S t) (dCa (cd_d nx)) i j + dIa (cd_d nx) i j * ppi p j + dFa (cd_d nx) i j * ppf p j + dCa (cd_d nx) i j * Fn i j.
Definition cl_ext_y (t : nat) (p : lstm_par) (deltas : mat) (nx : cl_d) : mat := fun i j =>
  carried timing (S t) (cd_dy nx) i j + deltas i j + dot_mm n (dIa (cd_d nx)) (pRi p) i j + dot_mm n (dFa (cd_d nx)) (pRf p) i j + dot_mm n (dOa (cd_d nx)) (pRo p) i j + dot_mm n (dZa (cd_d nx)) (pRz p) i j.
Lemma cl_bstep_adjoint t p p' x x' y y' c c' deltas nx Fn :
  let st := cl_step a nin n timing t p x y c in
  let d := cl_bstep a n timing t p deltas nx Fn st c in
  let tg := step' a nin n p p' x x' y y' c c' (lstm_step a nin n p x y c) in
  forall i j, (j < n)%nat ->
  cl_ext_y t p deltas nx i j * sel t y' (ty tg) i j + cl_ext_c t p nx Fn i j * sel t c' (tCa tg) i j =
  dZa (cd_d d) i j * gate' (pWz p) (pRz p) (pWz p') (pRz p') (pbz p') x x' y y' i j +
  dIa (cd_d d) i j * gate' (pWi p) (pRi p) (pWi p') (pRi p') (pbi p') x x' y y' i j +
  dFa (cd_d d) i j * gate' (pWf p) (pRf p) (pWf p') (pRf p') (pbf p') x x' y y' i j +
  dOa (cd_d d) i j * gate' (pWo p) (pRo p) (pWo p') (pRo p') (pbo p') x x' y y' i j +
  dIa (cd_d d) i j * (c i j * ppi p' j) + dFa (cd_d d) i j * (c i j * ppf p' j) + dOa (cd_d d) i j * (sCa st i j * ppo p' j) +
  (dIa (cd_d d) i j * ppi p j + dFa (cd_d d) i j * ppf p j + dCa (cd_d d) i j * silence timing t (sFb st) i j) * c' i j +
  carried timing t (cd_dy d) i j * y' i j + carried timing t (dCa (cd_d d)) i j * c' i j.
Proof.
  intros st d tg i j Hj.
  set (ls := lstm_step a nin n p x y c).
  assert (Edy : cd_dy d i j = cl_ext_y t p deltas nx i j) by (unfold d, cl_bstep, cl_ext_y, dot_add_mm; cbn [cd_dy]; lra).
  set (dy := cl_ext_y t p deltas nx i j) in *. 
  assert (EO : dOa (cd_d d) i j = (if off t j then 0 else dy * sCb ls i j) * sig' (sOb ls i j)).
  { rewrite <- Edy. unfold d, cl_bstep, st. cbn [dOa cd_d cd_dy]. rewrite (act_deriv_linear Sigmoid), cl_step_Ob, cl_step_Cb. f_equal. unfold silence. now rewrite stays_off. }
  assert (EC : dCa (cd_d d) i j = cl_ext_c t p nx Fn i j + dOa (cd_d d) i j * ppo p j + (if off t j then 0 else (dy * sOb ls i j) * act_deriv a (sCb ls i j) 1)).
  { rewrite <- Edy. unfold d, cl_bstep, st. cbn [dCa dOa cd_d cd_dy]. rewrite cl_step_Ob, cl_step_Cb. unfold silence at 2. rewrite (stays_off t j Hj), (act_deriv_linear a (sCb _ i j)).
    unfold cl_ext_c. destruct (off t j); fold ls; lra. }
  assert (EF : dFa (cd_d d) i j = if off t j then 0 else (dCa (cd_d d) i j * c i j) * sig' (sFb ls i j)).
  { unfold d, cl_bstep, st. cbn [dFa dCa cd_d]. rewrite cl_step_Fb. unfold silence at 1. rewrite (stays_off t j Hj). destruct (off t j); [reflexivity|]. rewrite (act_deriv_linear Sigmoid (sFb _ i j)). reflexivity. }
  assert (EI : dIa (cd_d d) i j = if off t j then 0 else (dCa (cd_d d) i j * sZb ls i j) * sig' (sIb ls i j)).
  { unfold d, cl_bstep, st. cbn [dIa dCa cd_d]. rewrite cl_step_Zb, cl_step_Ib. unfold silence at 1. rewrite (stays_off t j Hj). destruct (off t j); [reflexivity|]. rewrite (act_deriv_linear Sigmoid (sIb _ i j)). reflexivity. }
  assert (EZ : dZa (cd_d d) i j = if off t j then 0 else (dCa (cd_d d) i j * sIb ls i j) * act_deriv a (sZb ls i j) 1).
  { unfold d, cl_bstep, st. cbn [dZa dCa cd_d]. rewrite cl_step_Zb, cl_step_Ib. unfold silence at 1. rewrite (stays_off t j Hj). destruct (off t j); [reflexivity|]. rewrite (act_deriv_linear a (sZb _ i j)). reflexivity. }
  assert (ES : silence timing t (sFb st) i j = if off t j then 0 else sFb ls i j) by (unfold silence, st; now rewrite (stays_off t j Hj), cl_step_Fb).
  assert (E1 : carried timing t (cd_dy d) i j = if off t j then dy else 0) by (unfold carried; rewrite (stays_off t j Hj), Edy; destruct (off t j); lra).
  assert (E2 : carried timing t (dCa (cd_d d)) i j = if off t j then dCa (cd_d d) i j else 0) by (unfold carried; rewrite (stays_off t j Hj); destruct (off t j); lra).
  assert (E3 : sCa st i j = if off t j then c i j else sCa ls i j) by apply cl_step_Ca.
  rewrite ES, E1, E2, E3. clear ES E1 E2 E3 Edy. clearbody d dy. clear st. unfold sel.
  rewrite EF, EI, EZ, EC, EO. unfold tg, step'. cbn [ty tCa]. fold ls. clearbody ls.
  set (gz := gate' (pWz p) _ _ _ _ _ _ _ _ i j). set (gi := gate' (pWi p) _ _ _ _ _ _ _ _ i j). set (gf := gate' (pWf p) _ _ _ _ _ _ _ _ i j). set (go := gate' (pWo p) _ _ _ _ _ _ _ _ i j).
  destruct (off t j); ring.
Qed.

(** ** All steps *)
Section Run.
Variables (T : nat) (s0 : R) (p : R -> lstm_par) (p' : lstm_par) (x : R -> seq) (x' : seq) (cy cc : mat) (cF : mat).
Let T1 := S T.
Hypothesis Hp : par_curve s0 nin n p p'.
Hypothesis Hx : curve3 s0 T1 B nin x x'.
Let st s t := cl_state a nin n timing (p s) (x s) cy cc t.
Hypothesis HK : a = Rel -> forall t i j, (t < T1)%nat -> (i < B)%nat -> (j < n)%nat -> off t j = false -> sZa (st s0 t) i j <> 0 /\ sCa (st s0 t) i j <> 0.
Let z : mat := fun _ _ => 0.
Definition cyb s t := before (fun t => sy (st s t)) cy t.
Definition ccb s t := before (fun t => sCa (st s t)) cc t.
Definition mask_tang (t : nat) (tg : tang) (y' c' : mat) : tang := mkT (tZa tg) (tIa tg) (tFa tg) (tOa tg) (sel t c' (tCa tg)) (sel t y' (ty tg)).
Fixpoint ctan (t : nat) : tang :=
  match t with
  | O => mask_tang O (step' a nin n (p s0) p' (x s0 O) (x' O) cy z cc z (lstm_step a nin n (p s0) (x s0 O) cy cc)) z z
  | S k => mask_tang (S k) (step' a nin n (p s0) p' (x s0 (S k)) (x' (S k)) (sy (st s0 k)) (ty (ctan k)) (sCa (st s0 k)) (tCa (ctan k))
             (lstm_step a nin n (p s0) (x s0 (S k)) (sy (st s0 k)) (sCa (st s0 k)))) (ty (ctan k)) (tCa (ctan k))
  end.
Definition cyb' t := before (fun t => ty (ctan t)) z t.
Definition ccb' t := before (fun t => tCa (ctan t)) z t.
Lemma cst_eq s t : st s t = cl_step a nin n timing t (p s) (x s t) (cyb s t) (ccb s t).
Proof. destruct t; reflexivity. Qed.
Lemma ctan_eq t : ctan t = mask_tang t (step' a nin n (p s0) p' (x s0 t) (x' t) (cyb s0 t) (cyb' t) (ccb s0 t) (ccb' t) (lstm_step a nin n (p s0) (x s0 t) (cyb s0 t) (ccb s0 t))) (cyb' t) (ccb' t).
Proof. destruct t; reflexivity. Qed.
Lemma crun_D t : (t < T1)%nat -> curve2 s0 B n (fun s => sy (st s t)) (ty (ctan t)) /\ curve2 s0 B n (fun s => sCa (st s t)) (tCa (ctan t)).
Proof.
  assert (Z : forall m, curve2 s0 B n (fun _ => m) z) by (intros m i j _ _; apply D_const).
  assert (Step : forall t, (t < T1)%nat -> curve2 s0 B n (fun s => cyb s t) (cyb' t) -> curve2 s0 B n (fun s => ccb s t) (ccb' t) ->
    curve2 s0 B n (fun s => sy (st s t)) (ty (ctan t)) /\ curve2 s0 B n (fun s => sCa (st s t)) (tCa (ctan t))).
  { intros u Hu Hyb Hcb.
    assert (E := step_D a nin n B s0 p p' (fun s => x s u) (fun s => cyb s u) (fun s => ccb s u) (x' u) (cyb' u) (ccb' u) Hp (Hx u Hu) Hyb Hcb).
    assert (K : a = Rel -> forall i j, (i < B)%nat -> (j < n)%nat -> off u j = false ->
      sZa (lstm_step a nin n (p s0) (x s0 u) (cyb s0 u) (ccb s0 u)) i j <> 0 /\ sCa (lstm_step a nin n (p s0) (x s0 u) (cyb s0 u) (ccb s0 u)) i j <> 0).
    { intros Ha i j Hi Hj Ho. destruct (HK Ha u i j Hu Hi Hj Ho) as [K1 K2]. rewrite cst_eq in K1, K2. rewrite cl_step_Za in K1. rewrite cl_step_Ca, Ho in K2. now split. }
    split; intros i j Hi Hj; rewrite ctan_eq; cbn [mask_tang ty tCa]; unfold sel.
    - apply (D_ext s0 (fun s => if off u j then cyb s u i j else sy (lstm_step a nin n (p s) (x s u) (cyb s u) (ccb s u)) i j) _ _ _
        (fun s => eq_sym (eq_trans (f_equal (fun q => sy q i j) (cst_eq s u)) (cl_step_y u (p s) (x s u) (cyb s u) (ccb s u) i j))) eq_refl).
      destruct (off u j) eqn:Ho; [now apply Hyb|]. exact (proj2 (E i j Hi Hj (fun Ha => K Ha i j Hi Hj Ho))).
    - apply (D_ext s0 (fun s => if off u j then ccb s u i j else sCa (lstm_step a nin n (p s) (x s u) (cyb s u) (ccb s u)) i j) _ _ _
        (fun s => eq_sym (eq_trans (f_equal (fun q => sCa q i j) (cst_eq s u)) (cl_step_Ca u (p s) (x s u) (cyb s u) (ccb s u) i j))) eq_refl).
      destruct (off u j) eqn:Ho; [now apply Hcb|]. exact (proj1 (E i j Hi Hj (fun Ha => K Ha i j Hi Hj Ho))). }
  induction t as [|t IH]; intros Hlt; apply Step; try assumption.
  - exact (Z cy).
  - exact (Z cc).
  - apply IH. lia.
  - apply IH. lia.
Qed.

Variable deltas : seq.
Let y := cl_y a nin n timing T1 (p s0) (x s0) cy cc.
Let Ca := cl_Ca a nin n timing T1 (p s0) (x s0) cy cc.
Let cd t := cl_ds a n timing (p s0) deltas (st s0) Ca cF T1 (T1 - 1 - t).
Let d t := cd_d (cd t).
Let dn t := if (S t <? T1)%nat then cd (S t) else cl_d0.
Let Fn t := if (S t <? T1)%nat then silence timing (S t) (sFb (st s0 (S t))) else cF.
Lemma cCa_prev t : (t < T1)%nat -> Ca (prev T1 t) = ccb s0 t.
Proof.
  intros Hlt. unfold Ca, cl_Ca, ccb. destruct t as [|t]; cbn [prev before]; [now rewrite Nat.ltb_irrefl|]. destruct (Nat.ltb_spec t T1); [reflexivity | lia].
Qed.
Lemma cy_lt t : (t < T1)%nat -> y t = sy (st s0 t).
Proof. intros Hlt. unfold y, cl_y. now rewrite (proj2 (Nat.ltb_lt t T1) Hlt). Qed.
Lemma cCa_lt t : (t < T1)%nat -> Ca t = sCa (st s0 t).
Proof. intros Hlt. unfold Ca, cl_Ca. now rewrite (proj2 (Nat.ltb_lt t T1) Hlt). Qed.
Lemma cd_eq t : (t < T1)%nat -> cd t = cl_bstep a n timing t (p s0) (deltas t) (dn t) (Fn t) (st s0 t) (ccb s0 t).
Proof.
  intros Hlt. rewrite <- cCa_prev by assumption. unfold cd, dn, Fn. destruct (Nat.ltb_spec (S t) T1) as [L|L].
  - unfold cd. replace (T1 - 1 - t)%nat with (S (T1 - 1 - S t)) by lia. cbn [cl_ds]. replace (T1 - 1 - S (T1 - 1 - S t))%nat with t by lia. reflexivity.
  - replace (T1 - 1 - t)%nat with O by lia. cbn [cl_ds]. replace (T1 - 1)%nat with t by lia. reflexivity.
Qed.
Definition cgate_c (dg : mat) (W W' R' : mat) (b' : vec) (t : nat) : R :=
  pair2 B nin (dot_mm n dg W) (x' t) + pair2 n nin (dot_mm B (trans dg) (x s0 t)) W' + pair2 n n (dot_mm B (trans dg) (cyb s0 t)) R' + pair1 n (sum0 B dg) b'.
Definition ccontrib (t : nat) : R :=
  cgate_c (dZa (d t)) (pWz (p s0)) (pWz p') (pRz p') (pbz p') t + cgate_c (dIa (d t)) (pWi (p s0)) (pWi p') (pRi p') (pbi p') t +
  cgate_c (dFa (d t)) (pWf (p s0)) (pWf p') (pRf p') (pbf p') t + cgate_c (dOa (d t)) (pWo (p s0)) (pWo p') (pRo p') (pbo p') t +
  pair1 n (sum0 B (fun i j => ccb s0 t i j * dIa (d t) i j)) (ppi p') + pair1 n (sum0 B (fun i j => ccb s0 t i j * dFa (d t) i j)) (ppf p') +
  pair1 n (sum0 B (fun i j => sCa (st s0 t) i j * dOa (d t) i j)) (ppo p').
Lemma cgate_split dg W R W' R' b' t :
  pair2 B n dg (gate' W R W' R' b' (x s0 t) (x' t) (cyb s0 t) (cyb' t)) = cgate_c dg W W' R' b' t + pair2 B n (dot_mm n dg R) (cyb' t).
Proof.
  unfold LstmProps.gate', cgate_c. rewrite !pair2_add_r. rewrite (adj_in B n nin dg W (x' t)), (adj_in B n n dg R (cyb' t)), (adj_W B n nin dg (x s0 t) W'), (adj_W B n n dg (cyb s0 t) R'), (adj_b B n dg b'). lra.
Qed.
Lemma crun_adjoint : Rsum T1 (fun t => pair2 B n (deltas t) (ty (ctan t))) = Rsum T1 ccontrib.
Proof.
  set (fc := fun t i j => dIa (d t) i j * ppi (p s0) j + dFa (d t) i j * ppf (p s0) j + dCa (d t) i j * silence timing t (sFb (st s0 t)) i j).
  set (b := fun t => if (t <? T1)%nat then
      pair2 B n (dot_mm n (dZa (d t)) (pRz (p s0))) (cyb' t) + pair2 B n (dot_mm n (dIa (d t)) (pRi (p s0))) (cyb' t) +
      pair2 B n (dot_mm n (dFa (d t)) (pRf (p s0))) (cyb' t) + pair2 B n (dot_mm n (dOa (d t)) (pRo (p s0))) (cyb' t) + pair2 B n (fc t) (ccb' t) +
      pair2 B n (carried timing t (cd_dy (cd t))) (cyb' t) + pair2 B n (carried timing t (dCa (d t))) (ccb' t) else 0).
  assert (Z : forall m, pair2 B n m z = 0) by (intros m; apply Rsum_zero; intros; apply Rsum_zero; intros; unfold z; lra).
  rewrite (telescope T1 (fun t => pair2 B n (cl_ext_y t (p s0) (deltas t) (dn t)) (ty (ctan t)) + pair2 B n (cl_ext_c t (p s0) (dn t) (Fn t)) (tCa (ctan t))) b ccontrib).
  - unfold b. cbn [Nat.ltb Nat.leb T1]. unfold cyb', ccb'. cbn [before]. rewrite !Z. lra.
  - intros t Hlt. rewrite pair2_plus.
    rewrite (Rsum2_ext B n _ (fun i j =>
      dZa (d t) i j * gate' (pWz (p s0)) (pRz (p s0)) (pWz p') (pRz p') (pbz p') (x s0 t) (x' t) (cyb s0 t) (cyb' t) i j +
      dIa (d t) i j * gate' (pWi (p s0)) (pRi (p s0)) (pWi p') (pRi p') (pbi p') (x s0 t) (x' t) (cyb s0 t) (cyb' t) i j +
      dFa (d t) i j * gate' (pWf (p s0)) (pRf (p s0)) (pWf p') (pRf p') (pbf p') (x s0 t) (x' t) (cyb s0 t) (cyb' t) i j +
      dOa (d t) i j * gate' (pWo (p s0)) (pRo (p s0)) (pWo p') (pRo p') (pbo p') (x s0 t) (x' t) (cyb s0 t) (cyb' t) i j +
      dIa (d t) i j * (ccb s0 t i j * ppi p' j) + dFa (d t) i j * (ccb s0 t i j * ppf p' j) + dOa (d t) i j * (sCa (st s0 t) i j * ppo p' j) +
      fc t i j * ccb' t i j + carried timing t (cd_dy (cd t)) i j * cyb' t i j + carried timing t (dCa (d t)) i j * ccb' t i j)).
    + transitivity (pair2 B n (dZa (d t)) (gate' (pWz (p s0)) (pRz (p s0)) (pWz p') (pRz p') (pbz p') (x s0 t) (x' t) (cyb s0 t) (cyb' t)) +
        pair2 B n (dIa (d t)) (gate' (pWi (p s0)) (pRi (p s0)) (pWi p') (pRi p') (pbi p') (x s0 t) (x' t) (cyb s0 t) (cyb' t)) +
        pair2 B n (dFa (d t)) (gate' (pWf (p s0)) (pRf (p s0)) (pWf p') (pRf p') (pbf p') (x s0 t) (x' t) (cyb s0 t) (cyb' t)) +
        pair2 B n (dOa (d t)) (gate' (pWo (p s0)) (pRo (p s0)) (pWo p') (pRo p') (pbo p') (x s0 t) (x' t) (cyb s0 t) (cyb' t)) +
        pair2 B n (dIa (d t)) (fun i j => ccb s0 t i j * ppi p' j) + pair2 B n (dFa (d t)) (fun i j => ccb s0 t i j * ppf p' j) + pair2 B n (dOa (d t)) (fun i j => sCa (st s0 t) i j * ppo p' j) + pair2 B n (fc t) (ccb' t) +
        pair2 B n (carried timing t (cd_dy (cd t))) (cyb' t) + pair2 B n (carried timing t (dCa (d t))) (ccb' t)).
      * unfold pair2. rewrite <- !Rsum_plus. apply Rsum_ext. intros i Hi. rewrite <- !Rsum_plus. reflexivity.
      * rewrite !cgate_split, !adj_p. unfold ccontrib, b. rewrite (proj2 (Nat.ltb_lt t T1) Hlt). lra.
    + intros i j Hi Hj. rewrite ctan_eq. cbn [mask_tang ty tCa]. unfold fc, d. rewrite (cd_eq t Hlt), (cst_eq s0 t). now apply cl_bstep_adjoint.
  - intros t Hlt. unfold b, dn, Fn. destruct (Nat.ltb_spec (S t) T1) as [L|L].
    + change (cyb' (S t)) with (ty (ctan t)). change (ccb' (S t)) with (tCa (ctan t)). unfold cl_ext_y, cl_ext_c, fc. fold (d (S t)). rewrite !pair2_add_l. lra.
    + unfold pair2. rewrite <- Rsum_plus, Rplus_0_r. apply Rsum_ext. intros i Hi. rewrite <- Rsum_plus. apply Rsum_ext. intros j Hj.
      unfold cl_ext_y, cl_ext_c, cl_d0, lstm_d0, dot_mm, carried. cbn [cd_d cd_dy dIa dFa dOa dZa dCa]. rewrite !(Rsum_zero n) by (intros; lra). destruct (stays _ _); lra.
  - unfold b. now rewrite Nat.ltb_irrefl.
Qed.
(** Terms of the context that the backward pass leaves out *)
Definition cmissing : R :=
  pair2 n n (dot_mm B (trans (dZa (d O))) cy) (pRz p') + pair2 n n (dot_mm B (trans (dIa (d O))) cy) (pRi p') +
  pair2 n n (dot_mm B (trans (dFa (d O))) cy) (pRf p') + pair2 n n (dot_mm B (trans (dOa (d O))) cy) (pRo p') +
  pair1 n (sum0 B (fun i j => cc i j * dIa (d O) i j)) (ppi p') + pair1 n (sum0 B (fun i j => cc i j * dFa (d O) i j)) (ppf p').
Lemma carried_0 m i j : (j < n)%nat -> carried timing 0 m i j = 0.
Proof. intros Hj. unfold carried. now rewrite (stays_0 _ (Ht j Hj)). Qed.
Lemma cgR_eq (tg : seq) (m dR R' : mat) :
  pair2 n n (msub (dot_add_mm B (trans (tg O)) (carried timing 0 m) (dot_add_mm (T * B) (trans (flat B (tail tg))) (flat B y) dR)) dR) R' + pair2 n n (dot_mm B (trans (tg O)) cy) R'
  = Rsum T1 (fun t => pair2 n n (dot_mm B (trans (tg t)) (cyb s0 t)) R').
Proof.
  unfold T1. rewrite Rsum_shift. change (cyb s0 O) with cy. rewrite Rplus_comm. f_equal. rewrite <- pair2_sum. apply pair2_ext. intros i j _ Hj. f_equal. unfold msub.
  transitivity (dot_mm (T * B) (trans (flat B (tail tg))) (flat B y) i j).
  { unfold dot_add_mm. replace (dot_mm B (trans (tg O)) (carried timing 0 m) i j) with 0; [lra|]. symmetry. unfold dot_mm. apply Rsum_zero. intros k _. rewrite carried_0 by assumption. lra. }
  rewrite dot_flat. apply Rsum_ext. intros t Hlt. rewrite cy_lt by (unfold T1; lia). reflexivity.
Qed.
Lemma cgp_eq (tg tg2 : seq) (m : mat) (dp p1 : vec) :
  pair1 n (vsub (fun j => dp j + sum0 (T * B) (fun r j => flat B Ca r j * flat B (tail tg) r j) j + sum0 B (fun i j => carried timing 0 m i j * tg2 O i j) j) dp) p1 + pair1 n (sum0 B (fun i j => cc i j * tg O i j)) p1
  = Rsum T1 (fun t => pair1 n (sum0 B (fun i j => ccb s0 t i j * tg t i j)) p1).
Proof.
  unfold T1. rewrite Rsum_shift. change (ccb s0 O) with cc. rewrite Rplus_comm. f_equal. rewrite <- pair1_sum. apply Rsum_ext. intros j Hj. f_equal. unfold vsub.
  transitivity (sum0 (T * B) (flat B (fun t i j => Ca t i j * tail tg t i j)) j).
  { replace (sum0 B (fun i j0 => carried timing 0 m i j0 * tg2 O i j0) j) with 0.
    - change (fun r j0 => flat B Ca r j0 * flat B (tail tg) r j0) with (flat B (fun t i j => Ca t i j * tail tg t i j)). lra.
    - symmetry. unfold sum0. apply Rsum_zero. intros i _. rewrite carried_0 by assumption. lra. }
  rewrite sum0_flat. apply Rsum_ext. intros t Hlt. rewrite cCa_lt by (unfold T1; lia). reflexivity.
Qed.
Lemma cgpo_eq (tg : seq) (dp p1 : vec) :
  pair1 n (vsub (fun j => dp j + sum0 (T1 * B) (fun r j => flat B Ca r j * flat B tg r j) j) dp) p1
  = Rsum T1 (fun t => pair1 n (sum0 B (fun i j => sCa (st s0 t) i j * tg t i j)) p1).
Proof.
  rewrite <- pair1_sum. apply Rsum_ext. intros j _. f_equal. unfold vsub.
  transitivity (sum0 (T1 * B) (flat B (fun t i j => Ca t i j * tg t i j)) j); [change (fun r j0 => flat B Ca r j0 * flat B tg r j0) with (flat B (fun t i j => Ca t i j * tg t i j)); lra|].
  rewrite sum0_flat. apply Rsum_ext. intros t Hlt. rewrite cCa_lt by assumption. reflexivity.
Qed.

Lemma cl_general dx g :
  let '(dx1, g1) := cl_backward a n timing T1 B (p s0) (x s0) y Ca (st s0) cF deltas dx g in
  D s0 (fun s => Rsum T1 (fun t => pair2 B n (deltas t) (cl_y a nin n timing T1 (p s) (x s) cy cc t)))
       (pair2 (T1 * B) nin (msub dx1 dx) (flat B x') + par_pair nin n (par_sub g1 g) p' + cmissing).
Proof.
  assert (E : cl_backward a n timing T1 B (p s0) (x s0) y Ca (st s0) cF deltas dx g =
    (dot_add_mm n (flat B (fun t => dZa (d t))) (pWz (p s0)) (dot_add_mm n (flat B (fun t => dOa (d t))) (pWo (p s0)) (dot_add_mm n (flat B (fun t => dFa (d t))) (pWf (p s0)) (dot_add_mm n (flat B (fun t => dIa (d t))) (pWi (p s0)) dx))),
     let gW := fun tg dW => dot_add_mm (T1 * B) (trans (flat B tg)) (flat B (x s0)) dW in
     let gb := fun tg (db : vec) => fun j => db j + sum0 (T1 * B) (flat B tg) j in
     let gR := fun (tg : seq) dR => dot_add_mm B (trans (tg O)) (carried timing O (cd_dy (cd O))) (dot_add_mm ((T1 - 1) * B) (trans (flat B (tail tg))) (flat B y) dR) in
     let gp := fun (tg : seq) (dp : vec) => fun j => dp j + sum0 ((T1 - 1) * B) (fun r j => flat B Ca r j * flat B (tail tg) r j) j + sum0 B (fun i j => carried timing O (dCa (d O)) i j * dIa (d O) i j) j in
     mkPar (gW (fun t => dZa (d t)) (pWz g)) (gW (fun t => dIa (d t)) (pWi g)) (gW (fun t => dFa (d t)) (pWf g)) (gW (fun t => dOa (d t)) (pWo g))
       (gp (fun t => dIa (d t)) (ppi g)) (gp (fun t => dFa (d t)) (ppf g)) (fun j => ppo g j + sum0 (T1 * B) (fun r j => flat B Ca r j * flat B (fun t => dOa (d t)) r j) j)
       (gR (fun t => dZa (d t)) (pRz g)) (gR (fun t => dIa (d t)) (pRi g)) (gR (fun t => dFa (d t)) (pRf g)) (gR (fun t => dOa (d t)) (pRo g))
       (gb (fun t => dZa (d t)) (pbz g)) (gb (fun t => dIa (d t)) (pbi g)) (gb (fun t => dFa (d t)) (pbf g)) (gb (fun t => dOa (d t)) (pbo g)))) by reflexivity.
  rewrite E. clear E. cbv zeta.
  apply (D_ext s0 (fun s => Rsum T1 (fun t => pair2 B n (deltas t) (sy (st s t)))) _ (Rsum T1 (fun t => pair2 B n (deltas t) (ty (ctan t))))).
  - intros s. apply Rsum_ext. intros t Hlt. unfold cl_y. now rewrite (proj2 (Nat.ltb_lt t T1) Hlt).
  - rewrite crun_adjoint. unfold ccontrib, cgate_c. rewrite !Rsum_plus.
    replace (T1 - 1)%nat with T by (unfold T1; lia).
    unfold par_pair, par_sub. cbn [pWz pWi pWf pWo ppi ppf ppo pRz pRi pRf pRo pbz pbi pbf pbo].
    rewrite !flat_dW, cgpo_eq. unfold vsub at 3 4 5 6. rewrite !(flat_db T1 B n).
    unfold cmissing.
    assert (A1 := cgR_eq (fun t => dZa (d t)) (cd_dy (cd O)) (pRz g) (pRz p')). assert (A2 := cgR_eq (fun t => dIa (d t)) (cd_dy (cd O)) (pRi g) (pRi p')).
    assert (A3 := cgR_eq (fun t => dFa (d t)) (cd_dy (cd O)) (pRf g) (pRf p')). assert (A4 := cgR_eq (fun t => dOa (d t)) (cd_dy (cd O)) (pRo g) (pRo p')).
    assert (A5 := cgp_eq (fun t => dIa (d t)) (fun t => dIa (d t)) (dCa (d O)) (ppi g) (ppi p')). assert (A6 := cgp_eq (fun t => dFa (d t)) (fun t => dIa (d t)) (dCa (d O)) (ppf g) (ppf p')).
    cbn beta in A1, A2, A3, A4, A5, A6. rewrite <- A1, <- A2, <- A3, <- A4, <- A5, <- A6.
    assert (A7 : pair2 (T1 * B) nin (msub (dot_add_mm n (flat B (fun t => dZa (d t))) (pWz (p s0)) (dot_add_mm n (flat B (fun t => dOa (d t))) (pWo (p s0)) (dot_add_mm n (flat B (fun t => dFa (d t))) (pWf (p s0)) (dot_add_mm n (flat B (fun t => dIa (d t))) (pWi (p s0)) dx)))) dx) (flat B x') =
      Rsum T1 (fun t => pair2 B nin (dot_mm n (dZa (d t)) (pWz (p s0))) (x' t)) + Rsum T1 (fun t => pair2 B nin (dot_mm n (dIa (d t)) (pWi (p s0))) (x' t)) +
      Rsum T1 (fun t => pair2 B nin (dot_mm n (dFa (d t)) (pWf (p s0))) (x' t)) + Rsum T1 (fun t => pair2 B nin (dot_mm n (dOa (d t)) (pWo (p s0))) (x' t))).
    { rewrite <- !Rsum_plus.
      rewrite (Rsum_ext T1 _ (fun t => pair2 B nin (fun i j => dot_mm n (dZa (d t)) (pWz (p s0)) i j + dot_mm n (dIa (d t)) (pWi (p s0)) i j + dot_mm n (dFa (d t)) (pWf (p s0)) i j + dot_mm n (dOa (d t)) (pWo (p s0)) i j) (x' t))) by (intros t Hlt; now rewrite !pair2_add_l).
      rewrite <- (pair2_flat T1 B nin). apply pair2_ext. intros r j _ _. f_equal. unfold msub, dot_add_mm, flat, dot_mm. lra. }
    rewrite A7. lra.
  - apply (D_sum3 s0 T1 B n (fun s t => sy (st s t)) (fun t => ty (ctan t)) deltas). intros t i j Hlt Hi Hj. destruct (crun_D t Hlt) as [E _]. now apply E.
Qed.
End Run.
End ClockLstm.

(** ** C58 *)
(** The ClockworkLstm layer from parameters, inputs and contexts to gradients: forward
    pass followed by the backward pass *)
Definition cl_grads (a : act) (nin n : nat) (timing : vec) (T1 B : nat) (p : lstm_par) (x : seq) (cy cc cF : mat) (deltas : seq) (dx : mat) (g : lstm_par) : mat * lstm_par :=
  cl_backward a n timing T1 B p x (cl_y a nin n timing T1 p x cy cc) (cl_Ca a nin n timing T1 p x cy cc) (cl_state a nin n timing p x cy cc) cF deltas dx g.
(** For Rel: the arguments of the activations of all units that are active are not 0 *)
Definition cl_rel_ok (a : act) (nin n : nat) (timing : vec) (T1 B : nat) (p : lstm_par) (x : seq) (cy cc : mat) : Prop :=
  a = Rel -> forall t i j, (t < T1)%nat -> (i < B)%nat -> (j < n)%nat -> (0 < t)%nat /\ stays t (timing j) = true \/
    sZa (cl_state a nin n timing p x cy cc t) i j <> 0 /\ sCa (cl_state a nin n timing p x cy cc t) i j <> 0.
Lemma cl_rel_off a nin n timing T1 B p x cy cc : cl_rel_ok a nin n timing T1 B p x cy cc ->
  a = Rel -> forall t i j, (t < T1)%nat -> (i < B)%nat -> (j < n)%nat -> off timing t j = false -> sZa (cl_state a nin n timing p x cy cc t) i j <> 0 /\ sCa (cl_state a nin n timing p x cy cc t) i j <> 0.
Proof.
  intros H Ha t i j Hlt Hi Hj Ho. destruct (H Ha t i j Hlt Hi Hj) as [[Q1 Q2]|Q]; [|exact Q]. exfalso. unfold off in Ho. rewrite Q2 in Ho. destruct t; [lia | discriminate].
Qed.

(** A unit whose clock does not tick keeps its cell and its output; all others do what
    those of an LSTM do. *)
Theorem C58_clock : forall a nin n timing p x cy cc t i j, 
  let st := cl_state a nin n timing p x cy cc in
  let fresh := lstm_step a nin n p (x (S t)) (sy (st t)) (sCa (st t)) in
  (timing j <> 0 -> (exists k : Z, INR (S t) = timing j * IZR k) -> sy (st (S t)) i j = sy fresh i j /\ sCa (st (S t)) i j = sCa fresh i j) /\
  (timing j = 0 \/ (forall k : Z, INR (S t) <> timing j * IZR k) -> sy (st (S t)) i j = sy (st t) i j /\ sCa (st (S t)) i j = sCa (st t) i j) /\
  st O = lstm_step a nin n p (x O) cy cc.
Proof.
  intros a nin n timing p x cy cc t i j st fresh. unfold st. cbn [cl_state]. rewrite cl_step_y, cl_step_Ca. unfold off. cbn [Nat.ltb Nat.leb andb]. split; [|split].
  - intros H K. assert (E : stays (S t) (timing j) = false) by now apply stays_spec. rewrite E. split; reflexivity.
  - intros H. assert (E : stays (S t) (timing j) = true). { destruct (stays (S t) (timing j)) eqn:E; [reflexivity|]. exfalso. apply stays_spec in E as [E1 [k Ek]]. destruct H as [H|H]; [contradiction | exact (H k Ek)]. }
    rewrite E. split; reflexivity.
  - reflexivity.
Qed.
Print Assumptions C58_clock.

(** Without a context (zeros) and for timings that are not 0: all derivatives are exact *)
Theorem C58_exact : forall a nin n timing T B s0 (p : R -> lstm_par) p' (x : R -> seq) x' cF deltas dx g,
  let T1 := S T in let z : mat := fun _ _ => 0 in
  (forall j, (j < n)%nat -> timing j <> 0) ->
  par_curve s0 nin n p p' -> curve3 s0 T1 B nin x x' -> cl_rel_ok a nin n timing T1 B (p s0) (x s0) z z ->
  let '(dx1, g1) := cl_grads a nin n timing T1 B (p s0) (x s0) z z cF deltas dx g in
  D s0 (fun s => Rsum T1 (fun t => pair2 B n (deltas t) (cl_y a nin n timing T1 (p s) (x s) z z t)))
       (pair2 (T1 * B) nin (msub dx1 dx) (flat B x') + par_pair nin n (par_sub g1 g) p').
Proof.
  intros a nin n timing T B s0 p p' x x' cF deltas dx g T1 z Ht Hp Hx HK.
  assert (E := cl_general a nin n B timing Ht T s0 p p' x x' z z cF Hp Hx (cl_rel_off _ _ _ _ _ _ _ _ _ _ HK) deltas dx g). cbv zeta in E. unfold cl_grads. fold T1 in E.
  destruct (cl_backward _ _ _ _ _ _ _ _ _ _ _ _ _ _) as [dx1 g1].
  replace (pair2 (T1 * B) nin (msub dx1 dx) (flat B x') + par_pair nin n (par_sub g1 g) p') with
    (pair2 (T1 * B) nin (msub dx1 dx) (flat B x') + par_pair nin n (par_sub g1 g) p' + cmissing a nin n B timing T s0 p p' x z z cF deltas); [exact E|].
  unfold cmissing.
  assert (P2 : forall u v, pair2 n n (dot_mm B u z) v = 0) by (intros u v; apply Rsum_zero; intros i _; apply Rsum_zero; intros j _; unfold z; rewrite dot_0; lra).
  assert (P1 : forall u v, pair1 n (sum0 B (fun i j => z i j * u i j)) v = 0) by (intros u v; apply Rsum_zero; intros j _; unfold sum0; rewrite Rsum_zero; [lra | intros; unfold z; lra]).
  rewrite !P2, !P1. lra.
Qed.
Print Assumptions C58_exact.

(** With any context: exact for inputs and all parameters but the recurrent weights and
    the peephole weights of input and forget gate *)
Theorem C58_context_partial : forall a nin n timing T B s0 (p : R -> lstm_par) p' (x : R -> seq) x' cy cc cF deltas dx g,
  let T1 := S T in
  (forall j, (j < n)%nat -> timing j <> 0) ->
  par_curve s0 nin n p p' -> curve3 s0 T1 B nin x x' -> cl_rel_ok a nin n timing T1 B (p s0) (x s0) cy cc ->
  (forall i j, (i < n)%nat -> (j < n)%nat -> pRz p' i j = 0 /\ pRi p' i j = 0 /\ pRf p' i j = 0 /\ pRo p' i j = 0) ->
  (forall j, (j < n)%nat -> ppi p' j = 0 /\ ppf p' j = 0) ->
  let '(dx1, g1) := cl_grads a nin n timing T1 B (p s0) (x s0) cy cc cF deltas dx g in
  D s0 (fun s => Rsum T1 (fun t => pair2 B n (deltas t) (cl_y a nin n timing T1 (p s) (x s) cy cc t)))
       (pair2 (T1 * B) nin (msub dx1 dx) (flat B x') + par_pair nin n (par_sub g1 g) p').
Proof.
  intros a nin n timing T B s0 p p' x x' cy cc cF deltas dx g T1 Ht Hp Hx HK ZR Zp.
  assert (E := cl_general a nin n B timing Ht T s0 p p' x x' cy cc cF Hp Hx (cl_rel_off _ _ _ _ _ _ _ _ _ _ HK) deltas dx g). cbv zeta in E. unfold cl_grads. fold T1 in E.
  destruct (cl_backward _ _ _ _ _ _ _ _ _ _ _ _ _ _) as [dx1 g1].
  replace (pair2 (T1 * B) nin (msub dx1 dx) (flat B x') + par_pair nin n (par_sub g1 g) p') with
    (pair2 (T1 * B) nin (msub dx1 dx) (flat B x') + par_pair nin n (par_sub g1 g) p' + cmissing a nin n B timing T s0 p p' x cy cc cF deltas); [exact E|].
  unfold cmissing.
  assert (P2 : forall u v, (forall i j, (i < n)%nat -> (j < n)%nat -> v i j = 0) -> pair2 n n u v = 0) by (intros u v Hv; apply Rsum_zero; intros i Hi; apply Rsum_zero; intros j Hj; rewrite Hv by assumption; lra).
  assert (P1 : forall u v, (forall j, (j < n)%nat -> v j = 0) -> pair1 n u v = 0) by (intros u v Hv; apply Rsum_zero; intros j Hj; rewrite Hv by assumption; lra).
  rewrite !P2, !P1; try lra; intros; solve [now apply Zp | now apply ZR].
Qed.
Print Assumptions C58_context_partial.

(** With a context the gradient of the recurrent weights is wrong (306-309: dy[-1]
    instead of y[-1]), as for the LSTM *)
Theorem C58_context_refuted :
  exists (p : R -> lstm_par) p' (x : seq) cy cc deltas,
  par_curve 0 1 1 p p' /\
  let '(dx1, g1) := cl_grads Linear 1 1 (fun _ => 1) 1 1 (p 0) x cy cc (fun _ _ => 0) deltas (fun _ _ => 0) par0 in
  D 0 (fun s => Rsum 1 (fun t => pair2 1 1 (deltas t) (cl_y Linear 1 1 (fun _ => 1) 1 (p s) x cy cc t))) (/ 4) /\
  par_pair 1 1 (par_sub g1 par0) p' = 0 /\
  ~ D 0 (fun s => Rsum 1 (fun t => pair2 1 1 (deltas t) (cl_y Linear 1 1 (fun _ => 1) 1 (p s) x cy cc t))) (par_pair 1 1 (par_sub g1 par0) p').
Proof.
  exists parR, (parR 1), (fun _ _ _ => 0), (fun _ _ => 1), (fun _ _ => 0), (fun _ _ _ => 1). split; [apply parR_curve|].
  destruct (cl_grads _ _ _ _ _ _ _ _ _ _ _ _ _ _) as [dx1 g1] eqn:G.
  assert (A : D 0 (fun s => Rsum 1 (fun t => pair2 1 1 (fun _ _ => 1) (cl_y Linear 1 1 (fun _ => 1) 1 (parR s) (fun _ _ _ => 0) (fun _ _ => 1) (fun _ _ => 0) t))) (/ 4)).
  { apply (D_ext 0 (fun s => / 4 * s) _ (/ 4 * 1)); [| lra |].
    - intros s. unfold pair2, cl_y. cbn [Rsum Nat.ltb Nat.leb cl_state]. unfold cl_step. cbn [Nat.ltb Nat.leb lstm_step sy parR pWz pWi pWf pWo ppi ppf ppo pRz pRi pRf pRo pbz pbi pbf pbo]. unfold lstm_step, dot_add_mm, dot_mm, trans. cbn [sy Rsum parR pWz pWi pWf pWo ppi ppf ppo pRz pRi pRf pRo pbz pbi pbf pbo].
      repeat match goal with |- context [act_f Sigmoid ?e] => replace (act_f Sigmoid e) with (/ 2) by (rewrite <- sigmoid_0; f_equal; lra) end. cbn [act_f]. lra.
    - apply (D_scal 0 (/ 4) (fun s => s)), D_id. }
  assert (Z : par_pair 1 1 (par_sub g1 par0) (parR 1) = 0).
  { assert (E := f_equal snd G). unfold cl_grads, cl_backward in E. cbv zeta in E. cbn [snd] in E. rewrite <- E. clear.
    unfold par_pair, par_sub. cbn [pWz pWi pWf pWo ppi ppf ppo pRz pRi pRf pRo pbz pbi pbf pbo].
    match goal with |- context [pair2 1 1 (msub (dot_add_mm 1 ?u ?v (dot_add_mm ?k ?w ?w2 (pRz par0))) (pRz par0)) (pRz (parR 1))] =>
      replace (pair2 1 1 (msub (dot_add_mm 1 u v (dot_add_mm k w w2 (pRz par0))) (pRz par0)) (pRz (parR 1))) with 0 end.
    2:{ unfold pair2, msub, dot_add_mm, dot_mm. cbn [Rsum Nat.sub Nat.mul par0 parR pRz]. unfold carried at 1. rewrite (stays_0 1) by lra. lra. }
    assert (Q1 : forall u, pair1 1 u (fun _ => 0) = 0) by (intros; unfold pair1; cbn [Rsum]; lra). assert (Q2 : forall u, pair2 1 1 u (fun _ _ => 0) = 0) by (intros; unfold pair2; cbn [Rsum]; lra).
    cbn [parR pWz pWi pWf pWo ppi ppf ppo pRz pRi pRf pRo pbz pbi pbf pbo]. rewrite !Q1, !Q2.
    lra. }
  split; [exact A|]. split; [exact Z|]. rewrite Z. intros N. assert (Q := D_unique _ _ _ _ A N). lra.
Qed.
Print Assumptions C58_context_refuted.

(** With timing 0 the step 0 is computed but the backward pass takes the unit to be
    inactive at t = 0, too: all gradients are 0. *)
Definition parB (s : R) : lstm_par := let m : mat := fun _ _ => 0 in let v : vec := fun _ => 0 in mkPar m m m m v v v m m m m (fun _ => s) v v v.
Lemma parB_curve s nin n : par_curve s nin n parB (parB 1).
Proof. constructor; cbn; try apply curve_const2; try apply curve_const1. intros j _. apply D_id. Qed.
Theorem C58_zero_refuted :
  exists (p : R -> lstm_par) p' (x : seq) deltas, let z : mat := fun _ _ => 0 in
  par_curve 0 1 1 p p' /\
  let '(dx1, g1) := cl_grads Linear 1 1 (fun _ => 0) 1 1 (p 0) x z z z deltas z par0 in
  D 0 (fun s => Rsum 1 (fun t => pair2 1 1 (deltas t) (cl_y Linear 1 1 (fun _ => 0) 1 (p s) x z z t))) (/ 4) /\
  par_pair 1 1 (par_sub g1 par0) p' = 0 /\
  ~ D 0 (fun s => Rsum 1 (fun t => pair2 1 1 (deltas t) (cl_y Linear 1 1 (fun _ => 0) 1 (p s) x z z t))) (par_pair 1 1 (par_sub g1 par0) p').
Proof.
  exists parB, (parB 1), (fun _ _ _ => 0), (fun _ _ _ => 1). cbv zeta. split; [apply parB_curve|].
  destruct (cl_grads _ _ _ _ _ _ _ _ _ _ _ _ _ _) as [dx1 g1] eqn:G.
  assert (A : D 0 (fun s => Rsum 1 (fun t => pair2 1 1 (fun _ _ => 1) (cl_y Linear 1 1 (fun _ => 0) 1 (parB s) (fun _ _ _ => 0) (fun _ _ => 0) (fun _ _ => 0) t))) (/ 4)).
  { apply (D_ext 0 (fun s => / 4 * s) _ (/ 4 * 1)); [| lra |].
    - intros s. unfold pair2, cl_y. cbn [Rsum Nat.ltb Nat.leb cl_state]. unfold cl_step. cbn [Nat.ltb Nat.leb]. unfold lstm_step, dot_add_mm, dot_mm, trans. cbn [sy Rsum parB pWz pWi pWf pWo ppi ppf ppo pRz pRi pRf pRo pbz pbi pbf pbo].
      repeat match goal with |- context [act_f Sigmoid ?e] => replace (act_f Sigmoid e) with (/ 2) by (rewrite <- sigmoid_0; f_equal; lra) end. cbn [act_f]. lra.
    - apply (D_scal 0 (/ 4) (fun s => s)), D_id. }
  assert (Z : par_pair 1 1 (par_sub g1 par0) (parB 1) = 0).
  { assert (E := f_equal snd G). unfold cl_grads, cl_backward in E. cbv zeta in E. cbn [snd] in E. rewrite <- E. clear.
    unfold par_pair, par_sub. cbn [pWz pWi pWf pWo ppi ppf ppo pRz pRi pRf pRo pbz pbi pbf pbo].
    assert (Q1 : forall u, pair1 1 u (fun _ => 0) = 0) by (intros; unfold pair1; cbn [Rsum]; lra). assert (Q2 : forall u, pair2 1 1 u (fun _ _ => 0) = 0) by (intros; unfold pair2; cbn [Rsum]; lra).
    cbn [parB pWz pWi pWf pWo ppi ppf ppo pRz pRi pRf pRo pbz pbi pbf pbo]. rewrite !Q1, !Q2.
    assert (S0 : stays 0 0 = true) by (unfold stays; destruct (Req_EM_T 0 0); [reflexivity | lra]).
    unfold pair1, vsub, sum0, flat. cbn [Rsum Nat.mul Nat.add Nat.div Nat.modulo Nat.divmod fst snd Nat.sub cl_ds]. unfold cl_bstep. cbn [cd_d dZa]. unfold silence at 1. rewrite S0. cbn. lra. }
  split; [exact A|]. split; [exact Z|]. rewrite Z. intros N. assert (Q := D_unique _ _ _ _ A N). lra.
Qed.
Print Assumptions C58_zero_refuted.

(** A clock of 2: at t = 1 the unit keeps its output, and the gradient of bz is that of
    two times the output of step 0 (all gates 1/2, no weights). *)
Example C58_case :
  let timing : vec := fun _ => 2 in let z : mat := fun _ _ => 0 in
  (forall j, (j < 1)%nat -> timing j <> 0) /\ par_curve 0 1 1 parB (parB 1) /\ cl_rel_ok Linear 1 1 timing 2 1 (parB 3) (fun _ => z) z z /\
  sy (cl_state Linear 1 1 timing (parB 3) (fun _ => z) z z 1) O O = 3 / 4 /\
  pbz (snd (cl_grads Linear 1 1 timing 2 1 (parB 3) (fun _ => z) z z z (fun _ _ _ => 1) z par0)) O = / 2.
Proof.
  cbv zeta. split; [intros; lra|]. split; [apply parB_curve|]. split; [discriminate|].
  assert (S1 : stays 1 2 = true).
  { destruct (stays 1 2) eqn:E; [reflexivity|]. apply stays_spec in E as [_ [k Hk]]. cbn [INR] in Hk. exfalso.
    replace 1 with (IZR 1) in Hk by reflexivity. replace 2 with (IZR 2) in Hk by reflexivity. rewrite <- mult_IZR in Hk. apply eq_IZR in Hk. lia. }
  assert (S0 : stays 0 2 = false) by (apply stays_0; lra).
  assert (Y0 : forall k, k = O \/ k = 1%nat -> sy (cl_state Linear 1 1 (fun _ => 2) (parB 3) (fun _ _ _ => 0) (fun _ _ => 0) (fun _ _ => 0) k) O O = 3 / 4).
  { assert (Q : sy (cl_state Linear 1 1 (fun _ => 2) (parB 3) (fun _ _ _ => 0) (fun _ _ => 0) (fun _ _ => 0) O) O O = 3 / 4).
    { cbn [cl_state]. unfold cl_step. cbn [Nat.ltb Nat.leb]. unfold lstm_step, dot_add_mm, dot_mm, trans. cbn [sy Rsum parB pWz pWi pWf pWo ppi ppf ppo pRz pRi pRf pRo pbz pbi pbf pbo].
      repeat match goal with |- context [act_f Sigmoid ?e] => replace (act_f Sigmoid e) with (/ 2) by (rewrite <- sigmoid_0; f_equal; lra) end. cbn [act_f]. lra. }
    intros k [->| ->]; [exact Q|]. cbn [cl_state]. rewrite cl_step_y. unfold off. cbn [Nat.ltb Nat.leb andb]. rewrite S1. exact Q. }
  split; [now apply Y0; right|].
  unfold cl_grads, cl_backward. cbn [snd pbz]. unfold sum0, flat. cbn [par0 pbz Rsum Nat.mul Nat.add Nat.div Nat.modulo Nat.divmod fst snd Nat.sub cl_ds].
  unfold cl_bstep. cbn [cd_d dZa dIa dFa dOa dCa cd_dy cl_d0 lstm_d0 prev].
  unfold silence, carried. rewrite S0, S1. unfold dot_add_mm, dot_mm. cbn [Rsum].
  unfold cl_state, cl_step. cbn [Nat.ltb Nat.leb sCb sOb sIb sZb sFb sOa]. unfold lstm_step, dot_add_mm, dot_mm, trans. cbn [sCb sOb sIb sZb sFb sCa sy Rsum parB pWz pWi pWf pWo ppi ppf ppo pRz pRi pRf pRo pbz pbi pbf pbo].
  repeat match goal with |- context [act_f Sigmoid ?e] => replace (act_f Sigmoid e) with (/ 2) by (rewrite <- sigmoid_0; f_equal; lra) end. cbn [act_f act_deriv]. destruct (stays 2 2); lra.
Qed.
