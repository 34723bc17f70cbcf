(** Back-propagation through time of the LSTM layer: C43. *)
From Coq Require Import Reals Lra Lia Arith List.
From Verif Require Import NumBase NumpyModel NumpyProps LayersProps RecurrentModel RecurrentBase RecurrentProps.
Import ListNotations.
Open Scope R_scope.

(** A curve of parameters *)
Record par_curve (s0 : R) (nin n : nat) (p : R -> lstm_par) (p' : lstm_par) : Prop := {
  cWz : curve2 s0 n nin (fun s => pWz (p s)) (pWz p'); cWi : curve2 s0 n nin (fun s => pWi (p s)) (pWi p');
  cWf : curve2 s0 n nin (fun s => pWf (p s)) (pWf p'); cWo : curve2 s0 n nin (fun s => pWo (p s)) (pWo p');
  cpi : curve1 s0 n (fun s => ppi (p s)) (ppi p'); cpf : curve1 s0 n (fun s => ppf (p s)) (ppf p'); cpo : curve1 s0 n (fun s => ppo (p s)) (ppo p');
  cRz : curve2 s0 n n (fun s => pRz (p s)) (pRz p'); cRi : curve2 s0 n n (fun s => pRi (p s)) (pRi p');
  cRf : curve2 s0 n n (fun s => pRf (p s)) (pRf p'); cRo : curve2 s0 n n (fun s => pRo (p s)) (pRo p');
  cbz : curve1 s0 n (fun s => pbz (p s)) (pbz p'); cbi : curve1 s0 n (fun s => pbi (p s)) (pbi p');
  cbf : curve1 s0 n (fun s => pbf (p s)) (pbf p'); cbo : curve1 s0 n (fun s => pbo (p s)) (pbo p') }.
(** The change of the loss along a direction, from gradients *)
Definition par_pair (nin n : nat) (g p' : lstm_par) : R :=
  pair2 n nin (pWz g) (pWz p') + pair2 n nin (pWi g) (pWi p') + pair2 n nin (pWf g) (pWf p') + pair2 n nin (pWo g) (pWo p') +
  pair1 n (ppi g) (ppi p') + pair1 n (ppf g) (ppf p') + pair1 n (ppo g) (ppo p') +
  pair2 n n (pRz g) (pRz p') + pair2 n n (pRi g) (pRi p') + pair2 n n (pRf g) (pRf p') + pair2 n n (pRo g) (pRo p') +
  pair1 n (pbz g) (pbz p') + pair1 n (pbi g) (pbi p') + pair1 n (pbf g) (pbf p') + pair1 n (pbo g) (pbo p').
Definition vsub (a b : vec) : vec := fun j => a j - b j.
Definition par_sub (g h : lstm_par) : lstm_par := mkPar
  (msub (pWz g) (pWz h)) (msub (pWi g) (pWi h)) (msub (pWf g) (pWf h)) (msub (pWo g) (pWo h))
  (vsub (ppi g) (ppi h)) (vsub (ppf g) (ppf h)) (vsub (ppo g) (ppo h))
  (msub (pRz g) (pRz h)) (msub (pRi g) (pRi h)) (msub (pRf g) (pRf h)) (msub (pRo g) (pRo h))
  (vsub (pbz g) (pbz h)) (vsub (pbi g) (pbi h)) (vsub (pbf g) (pbf h)) (vsub (pbo g) (pbo h)).

Section Lstm.
Variables (a : act) (nin n B : nat).
Notation sig' y := (act_deriv Sigmoid y 1).

(** ** Derivatives of one step *)
Definition gate' (W R W' R' : mat) (b' : vec) (x x' y y' : mat) : mat := fun i j =>
  dot_mm nin x' (trans W) i j + dot_mm nin x (trans W') i j + (dot_mm n y' (trans R) i j + dot_mm n y (trans R') i j) + b' j.
Record tang := mkT { tZa : mat; tIa : mat; tFa : mat; tOa : mat; tCa : mat; ty : mat }.
Definition step' (p p' : lstm_par) (x x' y y' c c' : mat) (st : lstm_st) : tang :=
  let za := gate' (pWz p) (pRz p) (pWz p') (pRz p') (pbz p') x x' y y' in
  let ia := fun i j => gate' (pWi p) (pRi p) (pWi p') (pRi p') (pbi p') x x' y y' i j + (c' i j * ppi p j + c i j * ppi p' j) in
  let fa := fun i j => gate' (pWf p) (pRf p) (pWf p') (pRf p') (pbf p') x x' y y' i j + (c' i j * ppf p j + c i j * ppf p' j) in
  let ca := fun i j => (sig' (sIb st i j) * ia i j) * sZb st i j + sIb st i j * (act_deriv a (sZb st i j) 1 * za i j) +
                       ((sig' (sFb st i j) * fa i j) * c i j + sFb st i j * c' i j) in
  let oa := fun i j => gate' (pWo p) (pRo p) (pWo p') (pRo p') (pbo p') x x' y y' i j + (ca i j * ppo p j + sCa st i j * ppo p' j) in
  mkT za ia fa oa ca (fun i j => (sig' (sOb st i j) * oa i j) * sCb st i j + sOb st i j * (act_deriv a (sCb st i j) 1 * ca i j)).

Section StepD.
Variables (s0 : R) (p : R -> lstm_par) (p' : lstm_par) (x y c : R -> mat) (x' y' c' : mat).
Hypothesis Hp : par_curve s0 nin n p p'.
Hypothesis Hx : curve2 s0 B nin x x'.
Hypothesis Hy : curve2 s0 B n y y'.
Hypothesis Hc : curve2 s0 B n c c'.
Let st s := lstm_step a nin n (p s) (x s) (y s) (c s).
Let tg := step' (p s0) p' (x s0) x' (y s0) y' (c s0) c' (st s0).
Lemma D_gate W U (b : R -> vec) W' U' b' i j : curve2 s0 n nin W W' -> curve2 s0 n n U U' -> curve1 s0 n b b' -> (i < B)%nat -> (j < n)%nat ->
  D s0 (fun s => dot_mm nin (x s) (trans (W s)) i j + dot_mm n (y s) (trans (U s)) i j + b s j) (gate' (W s0) (U s0) W' U' b' (x s0) x' (y s0) y' i j).
Proof.
  intros HW HU Hb Hi Hj. unfold gate'. apply (D_plus s0 (fun s => dot_mm nin (x s) (trans (W s)) i j + dot_mm n (y s) (trans (U s)) i j) (fun s => b s j)); [|now apply Hb].
  apply (D_plus s0 (fun s => dot_mm nin (x s) (trans (W s)) i j) (fun s => dot_mm n (y s) (trans (U s)) i j)); [apply (D_dot s0 B nin n x W x' W'); auto | apply (D_dot s0 B n n y U y' U'); auto].
Qed.
Lemma step_D i j : (i < B)%nat -> (j < n)%nat -> (a = Rel -> sZa (st s0) i j <> 0 /\ sCa (st s0) i j <> 0) -> D s0 (fun s => sCa (st s) i j) (tCa tg i j) /\ D s0 (fun s => sy (st s) i j) (ty tg i j).
Proof.
  intros Hi Hj HK.
  assert (Z : D s0 (fun s => sZa (st s) i j) (tZa tg i j)).
  { apply (D_ext s0 (fun s => dot_mm nin (x s) (trans (pWz (p s))) i j + dot_mm n (y s) (trans (pRz (p s))) i j + pbz (p s) j) _ (tZa tg i j)); [reflexivity | reflexivity |].
    apply (D_gate (fun s => pWz (p s)) (fun s => pRz (p s)) (fun s => pbz (p s))); auto; apply Hp. }
  assert (I : D s0 (fun s => sIa (st s) i j) (tIa tg i j)).
  { apply (D_ext s0 (fun s => (dot_mm nin (x s) (trans (pWi (p s))) i j + dot_mm n (y s) (trans (pRi (p s))) i j + pbi (p s) j) + c s i j * ppi (p s) j) _ (tIa tg i j)); [intros s; cbn; unfold dot_add_mm; lra | reflexivity |].
    apply (D_plus s0 (fun s => dot_mm nin (x s) (trans (pWi (p s))) i j + dot_mm n (y s) (trans (pRi (p s))) i j + pbi (p s) j) (fun s => c s i j * ppi (p s) j)).
    - apply (D_gate (fun s => pWi (p s)) (fun s => pRi (p s)) (fun s => pbi (p s))); auto; apply Hp.
    - apply (D_mult s0 (fun s => c s i j) (fun s => ppi (p s) j)); [now apply Hc | now apply (cpi s0 nin n p p' Hp)]. }
  assert (F : D s0 (fun s => sFa (st s) i j) (tFa tg i j)).
  { apply (D_ext s0 (fun s => (dot_mm nin (x s) (trans (pWf (p s))) i j + dot_mm n (y s) (trans (pRf (p s))) i j + pbf (p s) j) + c s i j * ppf (p s) j) _ (tFa tg i j)); [intros s; cbn; unfold dot_add_mm; lra | reflexivity |].
    apply (D_plus s0 (fun s => dot_mm nin (x s) (trans (pWf (p s))) i j + dot_mm n (y s) (trans (pRf (p s))) i j + pbf (p s) j) (fun s => c s i j * ppf (p s) j)).
    - apply (D_gate (fun s => pWf (p s)) (fun s => pRf (p s)) (fun s => pbf (p s))); auto; apply Hp.
    - apply (D_mult s0 (fun s => c s i j) (fun s => ppf (p s) j)); [now apply Hc | now apply (cpf s0 nin n p p' Hp)]. }
  assert (Zb : D s0 (fun s => sZb (st s) i j) (act_deriv a (sZb (st s0) i j) 1 * tZa tg i j)) by (apply (D_act a s0 (fun s => sZa (st s) i j)); [assumption | intros Ha; now apply HK]).
  assert (Ib : D s0 (fun s => sIb (st s) i j) (sig' (sIb (st s0) i j) * tIa tg i j)) by (apply (D_act Sigmoid s0 (fun s => sIa (st s) i j)); [assumption | discriminate]).
  assert (Fb : D s0 (fun s => sFb (st s) i j) (sig' (sFb (st s0) i j) * tFa tg i j)) by (apply (D_act Sigmoid s0 (fun s => sFa (st s) i j)); [assumption | discriminate]).
  assert (C : D s0 (fun s => sCa (st s) i j) (tCa tg i j)).
  { apply (D_ext s0 (fun s => sIb (st s) i j * sZb (st s) i j + sFb (st s) i j * c s i j) _ (tCa tg i j)); [reflexivity | reflexivity |].
    apply (D_plus s0 (fun s => sIb (st s) i j * sZb (st s) i j) (fun s => sFb (st s) i j * c s i j)).
    - exact (D_mult s0 (fun s => sIb (st s) i j) (fun s => sZb (st s) i j) _ _ Ib Zb).
    - apply (D_mult s0 (fun s => sFb (st s) i j) (fun s => c s i j)); [exact Fb | now apply Hc]. }
  split; [exact C|].
  assert (O : D s0 (fun s => sOa (st s) i j) (tOa tg i j)).
  { apply (D_ext s0 (fun s => (dot_mm nin (x s) (trans (pWo (p s))) i j + dot_mm n (y s) (trans (pRo (p s))) i j + pbo (p s) j) + sCa (st s) i j * ppo (p s) j) _ (tOa tg i j)); [intros s; cbn; unfold dot_add_mm; lra | reflexivity |].
    apply (D_plus s0 (fun s => dot_mm nin (x s) (trans (pWo (p s))) i j + dot_mm n (y s) (trans (pRo (p s))) i j + pbo (p s) j) (fun s => sCa (st s) i j * ppo (p s) j)).
    - apply (D_gate (fun s => pWo (p s)) (fun s => pRo (p s)) (fun s => pbo (p s))); auto; apply Hp.
    - apply (D_mult s0 (fun s => sCa (st s) i j) (fun s => ppo (p s) j)); [exact C | now apply (cpo s0 nin n p p' Hp)]. }
  assert (Ob : D s0 (fun s => sOb (st s) i j) (sig' (sOb (st s0) i j) * tOa tg i j)) by (apply (D_act Sigmoid s0 (fun s => sOa (st s) i j)); [assumption | discriminate]).
  assert (Cb : D s0 (fun s => sCb (st s) i j) (act_deriv a (sCb (st s0) i j) 1 * tCa tg i j)) by (apply (D_act a s0 (fun s => sCa (st s) i j)); [assumption | intros Ha; now apply HK]).
  exact (D_mult s0 (fun s => sOb (st s) i j) (fun s => sCb (st s) i j) _ _ Ob Cb).
Qed.
End StepD.

(** ** The backward step is the adjoint of the derivative of the step *)
(** deltas of y and of Ca arriving from the following step *)
Definition ext_y (p : lstm_par) (deltas : mat) (nx : lstm_d) : mat := fun i j =>
  deltas i j + dot_mm n (dIa nx) (pRi p) i j + dot_mm n (dFa nx) (pRf p) i j + dot_mm n (dOa nx) (pRo p) i j + dot_mm n (dZa nx) (pRz p) i j.
Definition ext_c (p : lstm_par) (nx : lstm_d) (Fn : mat) : mat := fun i j => dIa nx i j * ppi p j + dFa nx i j * ppf p j + dCa nx i j * Fn i j.
Lemma bstep_adjoint p p' x x' y y' c c' deltas nx Fn st :
  let d := lstm_bstep a n p deltas nx Fn st c in
  let tg := step' p p' x x' y y' c c' st in
  forall i j,
  ext_y p deltas nx i j * ty tg i j + ext_c p nx Fn i j * tCa tg i j =
  dZa d i j * gate' (pWz p) (pRz p) (pWz p') (pRz p') (pbz p') x x' y y' i j +
  dIa d i j * gate' (pWi p) (pRi p) (pWi p') (pRi p') (pbi p') x x' y y' i j +
  dFa d i j * gate' (pWf p) (pRf p) (pWf p') (pRf p') (pbf p') x x' y y' i j +
  dOa d i j * gate' (pWo p) (pRo p) (pWo p') (pRo p') (pbo p') x x' y y' i j +
  dIa d i j * (c i j * ppi p' j) + dFa d i j * (c i j * ppf p' j) + dOa d i j * (sCa st i j * ppo p' j) +
  (dIa d i j * ppi p j + dFa d i j * ppf p j + dCa d i j * sFb st i j) * c' i j.
Proof.
  intros d tg i j. 
  set (dy := ext_y p deltas nx i j).
  assert (EO : dOa d i j = (dy * sCb st i j) * sig' (sOb st i j)).
  { unfold d, lstm_bstep. cbn [dOa]. rewrite (act_deriv_linear Sigmoid). f_equal. }
  assert (EC : dCa d i j = ext_c p nx Fn i j + dOa d i j * ppo p j + (dy * sOb st i j) * act_deriv a (sCb st i j) 1).
  { rewrite EO. unfold d, lstm_bstep. cbn [dCa]. rewrite (act_deriv_linear Sigmoid), (act_deriv_linear a). unfold ext_c.
    replace (dot_add_mm n (dZa nx) (pRz p) _ i j) with dy by (unfold dy, ext_y, dot_add_mm; lra). lra. }
  assert (EF : dFa d i j = (dCa d i j * c i j) * sig' (sFb st i j)) by (unfold d, lstm_bstep; cbn [dFa dCa]; rewrite (act_deriv_linear Sigmoid (sFb st i j)); reflexivity).
  assert (EI : dIa d i j = (dCa d i j * sZb st i j) * sig' (sIb st i j)) by (unfold d, lstm_bstep; cbn [dIa dCa]; rewrite (act_deriv_linear Sigmoid (sIb st i j)); reflexivity).
  assert (EZ : dZa d i j = (dCa d i j * sIb st i j) * act_deriv a (sZb st i j) 1) by (unfold d, lstm_bstep; cbn [dZa dCa]; rewrite (act_deriv_linear a (sZb st i j)); reflexivity).
  clearbody d dy. rewrite EF, EI, EZ, EC, EO. unfold tg, step'. cbn [ty tCa].
  set (gz := gate' (pWz p) _ _ _ _ _ _ _ _ i j). set (gi := gate' (pWi p) _ _ _ _ _ _ _ _ i j). set (gf := gate' (pWf p) _ _ _ _ _ _ _ _ i j). set (go := gate' (pWo p) _ _ _ _ _ _ _ _ i j).
  ring.
Qed.

(** ** All steps *)
Section Run.
Variables (T : nat) (s0 : R) (p : R -> lstm_par) (p' : lstm_par) (x : R -> seq) (x' : seq) (cy cc : mat) (cF : mat).
Let T1 := S T.
Hypothesis Hp : par_curve s0 nin n p p'.
Hypothesis Hx : curve3 s0 T1 B nin x x'.
Let st s t := lstm_state a nin n (p s) (x s) cy cc t.
Hypothesis HK : a = Rel -> forall t i j, (t < T1)%nat -> (i < B)%nat -> (j < n)%nat -> sZa (st s0 t) i j <> 0 /\ sCa (st s0 t) i j <> 0.
Let z : mat := fun _ _ => 0.
Definition yb s t := before (fun t => sy (st s t)) cy t.
Definition cb s t := before (fun t => sCa (st s t)) cc t.
Fixpoint tan (t : nat) : tang :=
  match t with
  | O => step' (p s0) p' (x s0 O) (x' O) cy z cc z (st s0 O)
  | S k => step' (p s0) p' (x s0 (S k)) (x' (S k)) (sy (st s0 k)) (ty (tan k)) (sCa (st s0 k)) (tCa (tan k)) (st s0 (S k))
  end.
Definition yb' t := before (fun t => ty (tan t)) z t.
Definition cb' t := before (fun t => tCa (tan t)) z t.
Lemma st_eq s t : st s t = lstm_step a nin n (p s) (x s t) (yb s t) (cb s t).
Proof. destruct t; reflexivity. Qed.
Lemma tan_eq t : tan t = step' (p s0) p' (x s0 t) (x' t) (yb s0 t) (yb' t) (cb s0 t) (cb' t) (st s0 t).
Proof. destruct t; reflexivity. Qed.
Lemma run_D t : (t < T1)%nat -> curve2 s0 B n (fun s => sy (st s t)) (ty (tan t)) /\ curve2 s0 B n (fun s => sCa (st s t)) (tCa (tan t)).
Proof.
  assert (Z : forall m, curve2 s0 B n (fun _ => m) z) by (intros m i j _ _; apply D_const).
  assert (Step : forall t, (t < T1)%nat -> curve2 s0 B n (fun s => yb s t) (yb' t) -> curve2 s0 B n (fun s => cb s t) (cb' t) ->
    curve2 s0 B n (fun s => sy (st s t)) (ty (tan t)) /\ curve2 s0 B n (fun s => sCa (st s t)) (tCa (tan t))).
  { intros u Hu Hyb Hcb. 
    assert (K : a = Rel -> forall i j, (i < B)%nat -> (j < n)%nat -> sZa (lstm_step a nin n (p s0) (x s0 u) (yb s0 u) (cb s0 u)) i j <> 0 /\ sCa (lstm_step a nin n (p s0) (x s0 u) (yb s0 u) (cb s0 u)) i j <> 0).
    { intros Ha i j Hi Hj. rewrite <- st_eq. now apply HK. }
    assert (E := step_D s0 p p' (fun s => x s u) (fun s => yb s u) (fun s => cb s u) (x' u) (yb' u) (cb' u) Hp (Hx u Hu) Hyb Hcb).
    split; intros i j Hi Hj; destruct (E i j Hi Hj (fun Ha => K Ha i j Hi Hj)) as [E1 E2]; rewrite tan_eq.
    - apply (D_ext s0 (fun s => sy (lstm_step a nin n (p s) (x s u) (yb s u) (cb s u)) i j) _ (ty (step' (p s0) p' (x s0 u) (x' u) (yb s0 u) (yb' u) (cb s0 u) (cb' u) (lstm_step a nin n (p s0) (x s0 u) (yb s0 u) (cb s0 u))) i j)); [intros s; now rewrite <- st_eq | now rewrite <- st_eq | exact E2].
    - apply (D_ext s0 (fun s => sCa (lstm_step a nin n (p s) (x s u) (yb s u) (cb s u)) i j) _ (tCa (step' (p s0) p' (x s0 u) (x' u) (yb s0 u) (yb' u) (cb s0 u) (cb' u) (lstm_step a nin n (p s0) (x s0 u) (yb s0 u) (cb s0 u))) i j)); [intros s; now rewrite <- st_eq | now rewrite <- st_eq | exact E1]. }
  induction t as [|t IH]; intros Ht; apply Step; try assumption.
  - exact (Z cy).
  - exact (Z cc).
  - apply IH. lia.
  - apply IH. lia.
Qed.

Variable deltas : seq.
Let y := lstm_y a nin n T1 (p s0) (x s0) cy cc.
Let Ca := lstm_Ca a nin n T1 (p s0) (x s0) cy cc.
Let d t := lstm_ds a n (p s0) deltas (st s0) Ca cF T1 (T1 - 1 - t).
Let dn t := if (S t <? T1)%nat then d (S t) else lstm_d0.
Let Fn t := if (S t <? T1)%nat then sFb (st s0 (S t)) else cF.
Lemma Ca_prev t : (t < T1)%nat -> Ca (prev T1 t) = cb s0 t.
Proof.
  intros Ht. unfold Ca, lstm_Ca, cb. destruct t as [|t]; cbn [prev before]; [now rewrite Nat.ltb_irrefl|]. destruct (Nat.ltb_spec t T1); [reflexivity | lia].
Qed.
Lemma y_lt t : (t < T1)%nat -> y t = sy (st s0 t).
Proof. intros Ht. unfold y, lstm_y. now rewrite (proj2 (Nat.ltb_lt t T1) Ht). Qed.
Lemma Ca_lt t : (t < T1)%nat -> Ca t = sCa (st s0 t).
Proof. intros Ht. unfold Ca, lstm_Ca. now rewrite (proj2 (Nat.ltb_lt t T1) Ht). Qed.
Lemma d_eq t : (t < T1)%nat -> d t = lstm_bstep a n (p s0) (deltas t) (dn t) (Fn t) (st s0 t) (cb s0 t).
Proof.
  intros Ht. rewrite <- Ca_prev by assumption. unfold d, dn, Fn. destruct (Nat.ltb_spec (S t) T1) as [L|L].
  - unfold d. replace (T1 - 1 - t)%nat with (S (T1 - 1 - S t)) by lia. cbn [lstm_ds]. replace (T1 - 1 - S (T1 - 1 - S t))%nat with t by lia. reflexivity.
  - replace (T1 - 1 - t)%nat with O by lia. cbn [lstm_ds]. replace (T1 - 1)%nat with t by lia. reflexivity.
Qed.
(** the contribution of step t *)
Definition gate_c (dg : mat) (W W' R' : mat) (b' : vec) (t : nat) : R :=
  pair2 B nin (dot_mm n dg W) (x' t) + pair2 n nin (dot_mm B (trans dg) (x s0 t)) W' + pair2 n n (dot_mm B (trans dg) (yb s0 t)) R' + pair1 n (sum0 B dg) b'.
Definition contrib (t : nat) : R :=
  gate_c (dZa (d t)) (pWz (p s0)) (pWz p') (pRz p') (pbz p') t + gate_c (dIa (d t)) (pWi (p s0)) (pWi p') (pRi p') (pbi p') t +
  gate_c (dFa (d t)) (pWf (p s0)) (pWf p') (pRf p') (pbf p') t + gate_c (dOa (d t)) (pWo (p s0)) (pWo p') (pRo p') (pbo p') t +
  pair1 n (sum0 B (fun i j => cb s0 t i j * dIa (d t) i j)) (ppi p') + pair1 n (sum0 B (fun i j => cb s0 t i j * dFa (d t) i j)) (ppf p') +
  pair1 n (sum0 B (fun i j => sCa (st s0 t) i j * dOa (d t) i j)) (ppo p').
Lemma gate_split dg W R W' R' b' t :
  pair2 B n dg (gate' W R W' R' b' (x s0 t) (x' t) (yb s0 t) (yb' t)) = gate_c dg W W' R' b' t + pair2 B n (dot_mm n dg R) (yb' t).
Proof.
  unfold gate', gate_c. rewrite !pair2_add_r. rewrite (adj_in B n nin dg W (x' t)), (adj_in B n n dg R (yb' t)), (adj_W B n nin dg (x s0 t) W'), (adj_W B n n dg (yb s0 t) R'), (adj_b B n dg b'). lra.
Qed.
Lemma run_adjoint : Rsum T1 (fun t => pair2 B n (deltas t) (ty (tan t))) = Rsum T1 contrib.
Proof.
  set (fc := fun t i j => dIa (d t) i j * ppi (p s0) j + dFa (d t) i j * ppf (p s0) j + dCa (d t) i j * sFb (st s0 t) i j).
  set (b := fun t => if (t <? T1)%nat then
      pair2 B n (dot_mm n (dZa (d t)) (pRz (p s0))) (yb' t) + pair2 B n (dot_mm n (dIa (d t)) (pRi (p s0))) (yb' t) +
      pair2 B n (dot_mm n (dFa (d t)) (pRf (p s0))) (yb' t) + pair2 B n (dot_mm n (dOa (d t)) (pRo (p s0))) (yb' t) + pair2 B n (fc t) (cb' t) else 0).
  assert (Z : forall m, pair2 B n m z = 0) by (intros m; apply Rsum_zero; intros; apply Rsum_zero; intros; unfold z; lra).
  rewrite (telescope T1 (fun t => pair2 B n (ext_y (p s0) (deltas t) (dn t)) (ty (tan t)) + pair2 B n (ext_c (p s0) (dn t) (Fn t)) (tCa (tan t))) b contrib).
  - unfold b. cbn [Nat.ltb Nat.leb T1]. unfold yb', cb'. cbn [before]. rewrite !Z. lra.
  - intros t Ht. rewrite pair2_plus.
    rewrite (Rsum2_ext B n _ (fun i j =>
      dZa (d t) i j * gate' (pWz (p s0)) (pRz (p s0)) (pWz p') (pRz p') (pbz p') (x s0 t) (x' t) (yb s0 t) (yb' t) i j +
      dIa (d t) i j * gate' (pWi (p s0)) (pRi (p s0)) (pWi p') (pRi p') (pbi p') (x s0 t) (x' t) (yb s0 t) (yb' t) i j +
      dFa (d t) i j * gate' (pWf (p s0)) (pRf (p s0)) (pWf p') (pRf p') (pbf p') (x s0 t) (x' t) (yb s0 t) (yb' t) i j +
      dOa (d t) i j * gate' (pWo (p s0)) (pRo (p s0)) (pWo p') (pRo p') (pbo p') (x s0 t) (x' t) (yb s0 t) (yb' t) i j +
      dIa (d t) i j * (cb s0 t i j * ppi p' j) + dFa (d t) i j * (cb s0 t i j * ppf p' j) + dOa (d t) i j * (sCa (st s0 t) i j * ppo p' j) +
      fc t i j * cb' t i j)).
    + transitivity (pair2 B n (dZa (d t)) (gate' (pWz (p s0)) (pRz (p s0)) (pWz p') (pRz p') (pbz p') (x s0 t) (x' t) (yb s0 t) (yb' t)) +
        pair2 B n (dIa (d t)) (gate' (pWi (p s0)) (pRi (p s0)) (pWi p') (pRi p') (pbi p') (x s0 t) (x' t) (yb s0 t) (yb' t)) +
        pair2 B n (dFa (d t)) (gate' (pWf (p s0)) (pRf (p s0)) (pWf p') (pRf p') (pbf p') (x s0 t) (x' t) (yb s0 t) (yb' t)) +
        pair2 B n (dOa (d t)) (gate' (pWo (p s0)) (pRo (p s0)) (pWo p') (pRo p') (pbo p') (x s0 t) (x' t) (yb s0 t) (yb' t)) +
        pair2 B n (dIa (d t)) (fun i j => cb s0 t i j * ppi p' j) + pair2 B n (dFa (d t)) (fun i j => cb s0 t i j * ppf p' j) + pair2 B n (dOa (d t)) (fun i j => sCa (st s0 t) i j * ppo p' j) + pair2 B n (fc t) (cb' t)).
      * unfold pair2. rewrite <- !Rsum_plus. apply Rsum_ext. intros i Hi. rewrite <- !Rsum_plus. reflexivity.
      * rewrite !gate_split, !adj_p. unfold contrib, b. rewrite (proj2 (Nat.ltb_lt t T1) Ht). lra.
    + intros i j Hi Hj. rewrite tan_eq. unfold fc. rewrite (d_eq t Ht). apply bstep_adjoint.
  - intros t Ht. unfold b, dn, Fn. destruct (Nat.ltb_spec (S t) T1) as [L|L].
    + change (yb' (S t)) with (ty (tan t)). change (cb' (S t)) with (tCa (tan t)). unfold ext_y, ext_c, fc. rewrite !pair2_add_l. lra.
    + unfold pair2. rewrite <- Rsum_plus, Rplus_0_r. apply Rsum_ext. intros i Hi. rewrite <- Rsum_plus. apply Rsum_ext. intros j Hj.
      unfold ext_y, ext_c, lstm_d0, dot_mm. cbn [dIa dFa dOa dZa dCa]. rewrite !(Rsum_zero n) by (intros; lra). lra.
  - unfold b. now rewrite Nat.ltb_irrefl.
Qed.
(** Terms of the context that the backward pass leaves out *)
Definition missing : R :=
  pair2 n n (dot_mm B (trans (dZa (d O))) cy) (pRz p') + pair2 n n (dot_mm B (trans (dIa (d O))) cy) (pRi p') +
  pair2 n n (dot_mm B (trans (dFa (d O))) cy) (pRf p') + pair2 n n (dot_mm B (trans (dOa (d O))) cy) (pRo p') +
  pair1 n (sum0 B (fun i j => cc i j * dIa (d O) i j)) (ppi p') + pair1 n (sum0 B (fun i j => cc i j * dFa (d O) i j)) (ppf p').
Lemma dot_0 k (u : mat) i j : dot_mm k u (fun _ _ => 0) i j = 0.
Proof. unfold dot_mm. apply Rsum_zero. intros. lra. Qed.
Lemma gR_eq (tg : seq) (dR R' : mat) :
  pair2 n n (msub (dot_add_mm B (trans (tg O)) (fun _ _ => 0) (dot_add_mm (T * B) (trans (flat B (tail tg))) (flat B y) dR)) dR) R' + pair2 n n (dot_mm B (trans (tg O)) cy) R'
  = Rsum T1 (fun t => pair2 n n (dot_mm B (trans (tg t)) (yb s0 t)) R').
Proof.
  unfold T1. rewrite Rsum_shift. change (yb s0 O) with cy. rewrite Rplus_comm. f_equal. rewrite <- pair2_sum. apply pair2_ext. intros i j _ _. f_equal. unfold msub.
  transitivity (dot_mm (T * B) (trans (flat B (tail tg))) (flat B y) i j); [unfold dot_add_mm; rewrite (dot_0 B (trans (tg O)) i j); lra|].
  rewrite dot_flat. apply Rsum_ext. intros t Ht. rewrite y_lt by (unfold T1; lia). reflexivity.
Qed.
Lemma gp_eq (tg tg2 : seq) (dp p1 : vec) :
  pair1 n (vsub (fun j => dp j + sum0 (T * B) (fun r j => flat B Ca r j * flat B (tail tg) r j) j + sum0 B (fun i j => (fun _ _ => 0) i j * tg2 O i j) j) dp) p1 + pair1 n (sum0 B (fun i j => cc i j * tg O i j)) p1
  = Rsum T1 (fun t => pair1 n (sum0 B (fun i j => cb s0 t i j * tg t i j)) p1).
Proof.
  unfold T1. rewrite Rsum_shift. change (cb s0 O) with cc. rewrite Rplus_comm. f_equal. rewrite <- pair1_sum. apply Rsum_ext. intros j _. f_equal. unfold vsub.
  transitivity (sum0 (T * B) (flat B (fun t i j => Ca t i j * tail tg t i j)) j); [unfold sum0 at 2; rewrite Rsum_zero by (intros; lra); change (fun r j0 => flat B Ca r j0 * flat B (tail tg) r j0) with (flat B (fun t i j => Ca t i j * tail tg t i j)); lra|].
  rewrite sum0_flat. apply Rsum_ext. intros t Ht. rewrite Ca_lt by (unfold T1; lia). reflexivity.
Qed.
Lemma gpo_eq (tg : seq) (dp p1 : vec) :
  pair1 n (vsub (fun j => dp j + sum0 (T1 * B) (fun r j => flat B Ca r j * flat B tg r j) j) dp) p1
  = Rsum T1 (fun t => pair1 n (sum0 B (fun i j => sCa (st s0 t) i j * tg t i j)) p1).
Proof.
  rewrite <- pair1_sum. apply Rsum_ext. intros j _. f_equal. unfold vsub.
  transitivity (sum0 (T1 * B) (flat B (fun t i j => Ca t i j * tg t i j)) j); [change (fun r j0 => flat B Ca r j0 * flat B tg r j0) with (flat B (fun t i j => Ca t i j * tg t i j)); lra|].
  rewrite sum0_flat. apply Rsum_ext. intros t Ht. rewrite Ca_lt by assumption. reflexivity.
Qed.

Lemma lstm_general dx g :
  let '(dx1, g1) := lstm_backward a n T1 B (p s0) (x s0) y Ca (st s0) cF deltas dx g in
  D s0 (fun s => Rsum T1 (fun t => pair2 B n (deltas t) (lstm_y a nin n T1 (p s) (x s) cy cc t)))
       (pair2 (T1 * B) nin (msub dx1 dx) (flat B x') + par_pair nin n (par_sub g1 g) p' + missing).
Proof.
  assert (E : lstm_backward a n T1 B (p s0) (x s0) y Ca (st s0) cF deltas dx g =
    (dot_add_mm n (flat B (fun t => dZa (d t))) (pWz (p s0)) (dot_add_mm n (flat B (fun t => dOa (d t))) (pWo (p s0)) (dot_add_mm n (flat B (fun t => dFa (d t))) (pWf (p s0)) (dot_add_mm n (flat B (fun t => dIa (d t))) (pWi (p s0)) dx))),
     let gW := fun tg dW => dot_add_mm (T1 * B) (trans (flat B tg)) (flat B (x s0)) dW in
     let gb := fun tg (db : vec) => fun j => db j + sum0 (T1 * B) (flat B tg) j in
     let gR := fun (tg : seq) dR => dot_add_mm B (trans (tg O)) (fun _ _ => 0) (dot_add_mm ((T1 - 1) * B) (trans (flat B (tail tg))) (flat B y) dR) in
     let gp := fun (tg : seq) (dp : vec) => fun j => dp j + sum0 ((T1 - 1) * B) (fun r j => flat B Ca r j * flat B (tail tg) r j) j + sum0 B (fun i j => 0 * dIa (d O) i j) j in
     mkPar (gW (fun t => dZa (d t)) (pWz g)) (gW (fun t => dIa (d t)) (pWi g)) (gW (fun t => dFa (d t)) (pWf g)) (gW (fun t => dOa (d t)) (pWo g))
       (gp (fun t => dIa (d t)) (ppi g)) (gp (fun t => dFa (d t)) (ppf g)) (fun j => ppo g j + sum0 (T1 * B) (fun r j => flat B Ca r j * flat B (fun t => dOa (d t)) r j) j)
       (gR (fun t => dZa (d t)) (pRz g)) (gR (fun t => dIa (d t)) (pRi g)) (gR (fun t => dFa (d t)) (pRf g)) (gR (fun t => dOa (d t)) (pRo g))
       (gb (fun t => dZa (d t)) (pbz g)) (gb (fun t => dIa (d t)) (pbi g)) (gb (fun t => dFa (d t)) (pbf g)) (gb (fun t => dOa (d t)) (pbo g)))) by reflexivity.
  rewrite E. clear E. cbv zeta.
  apply (D_ext s0 (fun s => Rsum T1 (fun t => pair2 B n (deltas t) (sy (st s t)))) _ (Rsum T1 (fun t => pair2 B n (deltas t) (ty (tan t))))).
  - intros s. apply Rsum_ext. intros t Ht. unfold lstm_y. now rewrite (proj2 (Nat.ltb_lt t T1) Ht).
  - rewrite run_adjoint. unfold contrib, gate_c. rewrite !Rsum_plus.
    replace (T1 - 1)%nat with T by (unfold T1; lia).
    unfold par_pair, par_sub. cbn [pWz pWi pWf pWo ppi ppf ppo pRz pRi pRf pRo pbz pbi pbf pbo].
    rewrite !flat_dW, gpo_eq. unfold vsub at 3 4 5 6. rewrite !(flat_db T1 B n).
    unfold missing.
    assert (A1 := gR_eq (fun t => dZa (d t)) (pRz g) (pRz p')). assert (A2 := gR_eq (fun t => dIa (d t)) (pRi g) (pRi p')).
    assert (A3 := gR_eq (fun t => dFa (d t)) (pRf g) (pRf p')). assert (A4 := gR_eq (fun t => dOa (d t)) (pRo g) (pRo p')).
    assert (A5 := gp_eq (fun t => dIa (d t)) (fun t => dIa (d t)) (ppi g) (ppi p')). assert (A6 := gp_eq (fun t => dFa (d t)) (fun t => dIa (d t)) (ppf g) (ppf p')).
    cbn beta in A1, A2, A3, A4, A5, A6. rewrite <- A1, <- A2, <- A3, <- A4, <- A5, <- A6.
    assert (A7 : pair2 (T1 * B) nin (msub (dot_add_mm n (flat B (fun t => dZa (d t))) (pWz (p s0)) (dot_add_mm n (flat B (fun t => dOa (d t))) (pWo (p s0)) (dot_add_mm n (flat B (fun t => dFa (d t))) (pWf (p s0)) (dot_add_mm n (flat B (fun t => dIa (d t))) (pWi (p s0)) dx)))) dx) (flat B x') =
      Rsum T1 (fun t => pair2 B nin (dot_mm n (dZa (d t)) (pWz (p s0))) (x' t)) + Rsum T1 (fun t => pair2 B nin (dot_mm n (dIa (d t)) (pWi (p s0))) (x' t)) +
      Rsum T1 (fun t => pair2 B nin (dot_mm n (dFa (d t)) (pWf (p s0))) (x' t)) + Rsum T1 (fun t => pair2 B nin (dot_mm n (dOa (d t)) (pWo (p s0))) (x' t))).
    { rewrite <- !Rsum_plus.
      rewrite (Rsum_ext T1 _ (fun t => pair2 B nin (fun i j => dot_mm n (dZa (d t)) (pWz (p s0)) i j + dot_mm n (dIa (d t)) (pWi (p s0)) i j + dot_mm n (dFa (d t)) (pWf (p s0)) i j + dot_mm n (dOa (d t)) (pWo (p s0)) i j) (x' t))) by (intros t Ht; now rewrite !pair2_add_l).
      rewrite <- (pair2_flat T1 B nin). apply pair2_ext. intros r j _ _. f_equal. unfold msub, dot_add_mm, flat, dot_mm. lra. }
    rewrite A7. lra.
  - apply (D_sum3 s0 T1 B n (fun s t => sy (st s t)) (fun t => ty (tan t)) deltas). intros t i j Ht Hi Hj. destruct (run_D t Ht) as [E _]. now apply E.
Qed.
End Run.
End Lstm.

(** ** C43 *)
(** Hypotheses of all statements: differentiable curves of parameters and inputs through
    the point of interest, and for Rel that the arguments of the two activations are not 0. *)
Definition rel_ok (a : act) (nin n T1 B : nat) (p : lstm_par) (x : seq) (cy cc : mat) : Prop :=
  a = Rel -> forall t i j, (t < T1)%nat -> (i < B)%nat -> (j < n)%nat ->
    sZa (lstm_state a nin n p x cy cc t) i j <> 0 /\ sCa (lstm_state a nin n p x cy cc t) i j <> 0.
(** The LSTM layer from the parameters, inputs and contexts to gradients: forward pass
    followed by the backward pass *)
Definition lstm_grads (a : act) (nin n T1 B : nat) (p : lstm_par) (x : seq) (cy cc cF : mat) (deltas : seq) (dx : mat) (g : lstm_par) : mat * lstm_par :=
  lstm_backward a n T1 B p x (lstm_y a nin n T1 p x cy cc) (lstm_Ca a nin n T1 p x cy cc) (lstm_state a nin n p x cy cc) cF deltas dx g.

(** Without a context (zeros): all derivatives are exact *)
Theorem C43_exact : forall a nin n T B s0 (p : R -> lstm_par) p' (x : R -> seq) x' cF deltas dx g,
  let T1 := S T in let z : mat := fun _ _ => 0 in
  par_curve s0 nin n p p' -> curve3 s0 T1 B nin x x' -> rel_ok a nin n T1 B (p s0) (x s0) z z ->
  let '(dx1, g1) := lstm_grads a nin n T1 B (p s0) (x s0) z z cF deltas dx g in
  D s0 (fun s => Rsum T1 (fun t => pair2 B n (deltas t) (lstm_y a nin n T1 (p s) (x s) z z t)))
       (pair2 (T1 * B) nin (msub dx1 dx) (flat B x') + par_pair nin n (par_sub g1 g) p').
Proof.
  intros a nin n T B s0 p p' x x' cF deltas dx g T1 z Hp Hx HK.
  assert (E := lstm_general a nin n B T s0 p p' x x' z z cF Hp Hx HK deltas dx g). cbv zeta in E. unfold lstm_grads. fold T1 in E.
  destruct (lstm_backward _ _ _ _ _ _ _ _ _ _ _ _ _) as [dx1 g1].
  replace (pair2 (T1 * B) nin (msub dx1 dx) (flat B x') + par_pair nin n (par_sub g1 g) p') with
    (pair2 (T1 * B) nin (msub dx1 dx) (flat B x') + par_pair nin n (par_sub g1 g) p' + missing a nin n B T s0 p p' x z z cF deltas); [exact E|].
  unfold missing. 
  assert (P2 : forall u v, pair2 n n (dot_mm B u z) v = 0) by (intros u v; apply Rsum_zero; intros i _; apply Rsum_zero; intros j _; unfold z; rewrite dot_0; lra).
  assert (P1 : forall u v, pair1 n (sum0 B (fun i j => z i j * u i j)) v = 0) by (intros u v; apply Rsum_zero; intros j _; unfold sum0; rewrite Rsum_zero; [lra | intros; unfold z; lra]).
  rewrite !P2, !P1. lra.
Qed.
Print Assumptions C43_exact.

(** With any context: exact for inputs and all parameters but the recurrent weights and
    the peephole weights of input and forget gate *)
Theorem C43_context_partial : forall a nin n T B s0 (p : R -> lstm_par) p' (x : R -> seq) x' cy cc cF deltas dx g,
  let T1 := S T in
  par_curve s0 nin n p p' -> curve3 s0 T1 B nin x x' -> rel_ok a nin n T1 B (p s0) (x s0) cy cc ->
  (forall i j, (i < n)%nat -> (j < n)%nat -> pRz p' i j = 0 /\ pRi p' i j = 0 /\ pRf p' i j = 0 /\ pRo p' i j = 0) ->
  (forall j, (j < n)%nat -> ppi p' j = 0 /\ ppf p' j = 0) ->
  let '(dx1, g1) := lstm_grads a nin n T1 B (p s0) (x s0) cy cc cF deltas dx g in
  D s0 (fun s => Rsum T1 (fun t => pair2 B n (deltas t) (lstm_y a nin n T1 (p s) (x s) cy cc t)))
       (pair2 (T1 * B) nin (msub dx1 dx) (flat B x') + par_pair nin n (par_sub g1 g) p').
Proof.
  intros a nin n T B s0 p p' x x' cy cc cF deltas dx g T1 Hp Hx HK ZR Zp.
  assert (E := lstm_general a nin n B T s0 p p' x x' cy cc cF Hp Hx HK deltas dx g). cbv zeta in E. unfold lstm_grads. fold T1 in E.
  destruct (lstm_backward _ _ _ _ _ _ _ _ _ _ _ _ _) as [dx1 g1].
  replace (pair2 (T1 * B) nin (msub dx1 dx) (flat B x') + par_pair nin n (par_sub g1 g) p') with
    (pair2 (T1 * B) nin (msub dx1 dx) (flat B x') + par_pair nin n (par_sub g1 g) p' + missing a nin n B T s0 p p' x cy cc cF deltas); [exact E|].
  unfold missing.
  assert (P2 : forall u v, (forall i j, (i < n)%nat -> (j < n)%nat -> v i j = 0) -> pair2 n n u v = 0) by (intros u v Hv; apply Rsum_zero; intros i Hi; apply Rsum_zero; intros j Hj; rewrite Hv by assumption; lra).
  assert (P1 : forall u v, (forall j, (j < n)%nat -> v j = 0) -> pair1 n u v = 0) by (intros u v Hv; apply Rsum_zero; intros j Hj; rewrite Hv by assumption; lra).
  rewrite !P2, !P1; try lra; intros; solve [now apply Zp | now apply ZR].
Qed.
Print Assumptions C43_context_partial.

(** With a context the gradient of the recurrent weights is wrong: dy[-1] (zeros) is used
    instead of y[-1] (lstm_layer.py 258-261) *)
Definition par0 : lstm_par := let m : mat := fun _ _ => 0 in let v : vec := fun _ => 0 in mkPar m m m m v v v m m m m v v v v.
Definition parR (s : R) : lstm_par := let m : mat := fun _ _ => 0 in let v : vec := fun _ => 0 in mkPar m m m m v v v (fun _ _ => s) m m m v v v v.
Lemma curve_const2 s m n u : curve2 s m n (fun _ => u) (fun _ _ => 0).
Proof. intros i j _ _. apply D_const. Qed.
Lemma curve_const1 s n u : curve1 s n (fun _ => u) (fun _ => 0).
Proof. intros j _. apply D_const. Qed.
Lemma parR_curve s nin n : par_curve s nin n parR (parR 1).
Proof.
  constructor; cbn; try apply curve_const2; try apply curve_const1. intros i j _ _. apply D_id.
Qed.
Lemma sigmoid_0 : act_f Sigmoid 0 = / 2.
Proof. unfold act_f. destruct (Rle_dec 0 0); [|lra]. rewrite Ropp_0, exp_0. field. Qed.
Theorem C43_context_refuted :
  exists (p : R -> lstm_par) p' (x : seq) cy cc deltas,
  par_curve 0 1 1 p p' /\
  let '(dx1, g1) := lstm_grads Linear 1 1 1 1 (p 0) x cy cc (fun _ _ => 0) deltas (fun _ _ => 0) par0 in
  D 0 (fun s => Rsum 1 (fun t => pair2 1 1 (deltas t) (lstm_y Linear 1 1 1 (p s) x cy cc t))) (/ 4) /\
  par_pair 1 1 (par_sub g1 par0) p' = 0 /\
  ~ D 0 (fun s => Rsum 1 (fun t => pair2 1 1 (deltas t) (lstm_y Linear 1 1 1 (p s) x cy cc t))) (par_pair 1 1 (par_sub g1 par0) p').
Proof.
  exists parR, (parR 1), (fun _ _ _ => 0), (fun _ _ => 1), (fun _ _ => 0), (fun _ _ _ => 1). split; [apply parR_curve|].
  destruct (lstm_grads _ _ _ _ _ _ _ _ _ _ _ _ _) as [dx1 g1] eqn:G.
  assert (A : D 0 (fun s => Rsum 1 (fun t => pair2 1 1 (fun _ _ => 1) (lstm_y Linear 1 1 1 (parR s) (fun _ _ _ => 0) (fun _ _ => 1) (fun _ _ => 0) t))) (/ 4)).
  { apply (D_ext 0 (fun s => / 4 * s) _ (/ 4 * 1)); [| lra |].
    - intros s. unfold pair2, lstm_y. cbn [Rsum Nat.ltb Nat.leb lstm_state lstm_step sy parR pWz pWi pWf pWo ppi ppf ppo pRz pRi pRf pRo pbz pbi pbf pbo]. unfold lstm_step, dot_add_mm, dot_mm, trans. cbn [sy Rsum parR pWz pWi pWf pWo ppi ppf ppo pRz pRi pRf pRo pbz pbi pbf pbo].
      repeat match goal with |- context [act_f Sigmoid ?e] => replace (act_f Sigmoid e) with (/ 2) by (rewrite <- sigmoid_0; f_equal; lra) end. cbn [act_f]. lra.
    - apply (D_scal 0 (/ 4) (fun s => s)), D_id. }
  assert (Z : par_pair 1 1 (par_sub g1 par0) (parR 1) = 0).
  { assert (E := f_equal snd G). unfold lstm_grads, lstm_backward in E. cbv zeta in E. cbn [snd] in E. rewrite <- E. clear.
    unfold par_pair, par_sub. cbn [pWz pWi pWf pWo ppi ppf ppo pRz pRi pRf pRo pbz pbi pbf pbo].
    match goal with |- context [pair2 1 1 (msub (dot_add_mm 1 ?u ?v (dot_add_mm ?k ?w ?w2 (pRz par0))) (pRz par0)) (pRz (parR 1))] =>
      replace (pair2 1 1 (msub (dot_add_mm 1 u v (dot_add_mm k w w2 (pRz par0))) (pRz par0)) (pRz (parR 1))) with 0 end.
    2:{ unfold pair2, msub, dot_add_mm, dot_mm. cbn [Rsum Nat.sub Nat.mul par0 parR pRz]. lra. }
    assert (Q1 : forall u, pair1 1 u (fun _ => 0) = 0) by (intros; unfold pair1; cbn [Rsum]; lra). assert (Q2 : forall u, pair2 1 1 u (fun _ _ => 0) = 0) by (intros; unfold pair2; cbn [Rsum]; lra).
    cbn [parR pWz pWi pWf pWo ppi ppf ppo pRz pRi pRf pRo pbz pbi pbf pbo]. rewrite !Q1, !Q2.
    lra. }
  split; [exact A|]. split; [exact Z|]. rewrite Z. intros N. assert (Q := D_unique _ _ _ _ A N). lra.
Qed.
Print Assumptions C43_context_refuted.
(** Inputs 2 and no context, all weights 0, one step, identity as activation: all gates are
    1/2, y = Ob * Ib * Wz * 2 and the gradient of Wz is 1/4 * 2. *)
Example C43_case :
  par_curve 0 1 1 parR (parR 1) /\ rel_ok Linear 1 1 1 1 (parR 0) (fun _ _ _ => 2) (fun _ _ => 0) (fun _ _ => 0) /\
  pWz (snd (lstm_grads Linear 1 1 1 1 par0 (fun _ _ _ => 2) (fun _ _ => 0) (fun _ _ => 0) (fun _ _ => 0) (fun _ _ _ => 1) (fun _ _ => 0) par0)) O O = / 2.
Proof.
  split; [apply parR_curve|]. split; [discriminate|]. unfold lstm_grads, lstm_backward. cbn [snd pWz].
  unfold dot_add_mm at 1. cbn [pWz par0]. unfold dot_mm at 1. cbn [Rsum Nat.mul Nat.add]. unfold trans, flat. cbn [Nat.div Nat.modulo Nat.divmod fst snd Nat.sub].
  cbn [lstm_ds Nat.sub]. unfold lstm_bstep. cbn [dZa lstm_d0 dIa dFa dOa dCa par0 pWz pWi pWf pWo ppi ppf ppo pRz pRi pRf pRo pbz pbi pbf pbo lstm_state].
  unfold lstm_step. cbn [sCb sOb sIb sZb sFb par0 pWz pWi pWf pWo ppi ppf ppo pRz pRi pRf pRo pbz pbi pbf pbo].
  unfold dot_add_mm, dot_mm. cbn [Rsum]. unfold trans.
  repeat match goal with |- context [act_f Sigmoid ?e] => replace (act_f Sigmoid e) with (/ 2) by (rewrite <- sigmoid_0; f_equal; lra) end. cbn [act_f act_deriv]. lra.
Qed.
