(** Model of the recurrent layers (brainstorm/layers/recurrent_layer.py, lstm_layer.py,
    clockwork_layer.py), over exact reals.

    A buffer with a context of one time step is a sequence of matrices (batch x
    features): for a pass over [T1] steps the entries 0 .. T1-1 are the steps and entry
    T1, that is buffer[-1], is the context (t = -1).  Python's buffer[t - 1] is therefore
    the entry [prev T1 t]. *)
From Coq Require Import Reals Arith List.
From Verif Require Import NumBase NumpyModel.
Import ListNotations.
Open Scope R_scope.

Definition seq := nat -> mat.
Definition prev (T1 t : nat) : nat := match t with O => T1 | S k => k end.
(** flatten_time(buffer[:n]) (utils.py): rows are numbered time * batch_size + sample *)
Definition flat (B : nat) (x : seq) : mat := fun r j => x (r / B)%nat (r mod B)%nat j.
(** buffer[1:] *)
Definition tail (x : seq) : seq := fun t => x (S t).

(** ** Recurrent (recurrent_layer.py) *)
Section Recurrent.
Variables (a : act) (nin n : nat).
(** forward_pass (51-67), the value of outputs[t] computed from inputs and the context *)
Fixpoint rec_y (W R : mat) (bias : vec) (x : seq) (ctx : mat) (t : nat) : mat :=
  let Ha := dot_mm nin (x t) (trans W) in
  let Ha := fun i j => Ha i j + bias j in
  let Ha := dot_add_mm n (match t with O => ctx | S k => rec_y W R bias x ctx k end) (trans R) Ha in
  fun i j => act_f a (Ha i j).
Definition rec_forward (T1 : nat) (W R : mat) (bias : vec) (x : seq) (ctx : mat) : seq :=
  fun t => if (t <? T1)%nat then rec_y W R bias x ctx t else ctx.
(** backward_pass (69-102).  dHa[T - k], T = inputs.shape[0] - 1, in the order of the
    loop (83-86) *)
Fixpoint rec_dHa (R : mat) (outputs doutputs : seq) (T k : nat) : mat :=
  match k with
  | O => fun i j => act_deriv a (outputs T i j) (doutputs T i j)
  | S k' => let t := (T - S k')%nat in
      let dHb := dot_add_mm n (rec_dHa R outputs doutputs T k') R (doutputs t) in
      fun i j => act_deriv a (outputs t i j) (dHb i j)
  end.
(** Results: dinputs (flattened), dW, dR, dbias *)
Definition rec_backward (T1 B : nat) (W R : mat) (inputs outputs doutputs : seq) (dinputs dW dR : mat) (dbias : vec) : mat * mat * mat * vec :=
  let T := (T1 - 1)%nat in
  let dHa := fun t => rec_dHa R outputs doutputs T (T - t) in
  let flat_dHa := flat B dHa in
  let dinputs := dot_add_mm n flat_dHa W dinputs in
  let dW := dot_add_mm (T1 * B) (trans flat_dHa) (flat B inputs) dW in
  let dbias_tmp := sum0 (T1 * B) flat_dHa in
  let dbias := fun j => dbias j + dbias_tmp j in
  let dR := dot_add_mm ((T1 - 1) * B) (trans (flat B (tail dHa))) (flat B outputs) dR in
  let dR := dot_add_mm B (trans (dHa O)) (outputs T1) dR in
  (dinputs, dW, dR, dbias).
End Recurrent.

(** ** LSTM (lstm_layer.py) *)
Record lstm_par := mkPar {
  pWz : mat; pWi : mat; pWf : mat; pWo : mat; ppi : vec; ppf : vec; ppo : vec;
  pRz : mat; pRi : mat; pRf : mat; pRo : mat; pbz : vec; pbi : vec; pbf : vec; pbo : vec }.
Record lstm_st := mkSt { sZa : mat; sZb : mat; sIa : mat; sIb : mat; sFa : mat; sFb : mat; sOa : mat; sOb : mat; sCa : mat; sCb : mat; sy : mat }.
Section Lstm.
Variables (a : act) (nin n : nat).
(** One step of forward_pass (108-145); [x] = x[t], [y], [c] = y[t-1], Ca[t-1] *)
Definition lstm_step (p : lstm_par) (x y c : mat) : lstm_st :=
  let Za := dot_mm nin x (trans (pWz p)) in
  let Ia := dot_mm nin x (trans (pWi p)) in
  let Fa := dot_mm nin x (trans (pWf p)) in
  let Oa := dot_mm nin x (trans (pWo p)) in
  let Za := dot_add_mm n y (trans (pRz p)) Za in
  let Za := fun i j => Za i j + pbz p j in
  let Zb := fun i j => act_f a (Za i j) in
  let Ia := dot_add_mm n y (trans (pRi p)) Ia in
  let Ia := fun i j => Ia i j + c i j * ppi p j in
  let Ia := fun i j => Ia i j + pbi p j in
  let Ib := fun i j => act_f Sigmoid (Ia i j) in
  let Fa := dot_add_mm n y (trans (pRf p)) Fa in
  let Fa := fun i j => Fa i j + c i j * ppf p j in
  let Fa := fun i j => Fa i j + pbf p j in
  let Fb := fun i j => act_f Sigmoid (Fa i j) in
  let Ca := fun i j => Ib i j * Zb i j in
  let Ca := fun i j => Ca i j + Fb i j * c i j in
  let Oa := dot_add_mm n y (trans (pRo p)) Oa in
  let Oa := fun i j => Oa i j + Ca i j * ppo p j in
  let Oa := fun i j => Oa i j + pbo p j in
  let Ob := fun i j => act_f Sigmoid (Oa i j) in
  let Cb := fun i j => act_f a (Ca i j) in
  mkSt Za Zb Ia Ib Fa Fb Oa Ob Ca Cb (fun i j => Ob i j * Cb i j).
(** All steps; [cy], [cc] are the contexts y[-1] and Ca[-1] *)
Fixpoint lstm_state (p : lstm_par) (x : seq) (cy cc : mat) (t : nat) : lstm_st :=
  match t with
  | O => lstm_step p (x O) cy cc
  | S k => lstm_step p (x (S k)) (sy (lstm_state p x cy cc k)) (sCa (lstm_state p x cy cc k))
  end.
(** The buffers y and Ca, with their contexts *)
Definition lstm_y (T1 : nat) (p : lstm_par) (x : seq) (cy cc : mat) : seq := fun t => if (t <? T1)%nat then sy (lstm_state p x cy cc t) else cy.
Definition lstm_Ca (T1 : nat) (p : lstm_par) (x : seq) (cy cc : mat) : seq := fun t => if (t <? T1)%nat then sCa (lstm_state p x cy cc t) else cc.

Record lstm_d := mkD { dZa : mat; dIa : mat; dFa : mat; dOa : mat; dCa : mat }.
(** The values at index time_size, before the first step of the loop: dIa, dFa, dOa and
    dZa are backward-only buffers, cleared by clear_backward_buffers; dCa is filled with
    0 (168). *)
Definition lstm_d0 : lstm_d := mkD (fun _ _ => 0) (fun _ _ => 0) (fun _ _ => 0) (fun _ _ => 0) (fun _ _ => 0).
(** One step of the loop of backward_pass (171-205); [nx] the deltas of step t+1, [Fn] =
    Fb[t+1], [st] the values of step t, [c] = Ca[t-1]. *)
Definition lstm_bstep (p : lstm_par) (deltas : mat) (nx : lstm_d) (Fn : mat) (st : lstm_st) (c : mat) : lstm_d :=
  let dy := deltas in
  let dy := dot_add_mm n (dIa nx) (pRi p) dy in
  let dy := dot_add_mm n (dFa nx) (pRf p) dy in
  let dy := dot_add_mm n (dOa nx) (pRo p) dy in
  let dy := dot_add_mm n (dZa nx) (pRz p) dy in
  let dC := fun i j => 0 + dIa nx i j * ppi p j in
  let dC := fun i j => dC i j + dFa nx i j * ppf p j in
  let dOb := fun i j => dy i j * sCb st i j in
  let dO := fun i j => act_deriv Sigmoid (sOb st i j) (dOb i j) in
  let dC := fun i j => dC i j + dO i j * ppo p j in
  let dCb := fun i j => dy i j * sOb st i j in
  let dCb := fun i j => act_deriv a (sCb st i j) (dCb i j) in
  let dC := fun i j => dC i j + dCb i j in
  let dC := fun i j => dC i j + dCa nx i j * Fn i j in
  let dFb := fun i j => dC i j * c i j in
  let dF := fun i j => act_deriv Sigmoid (sFb st i j) (dFb i j) in
  let dIb := fun i j => dC i j * sZb st i j in
  let dI := fun i j => act_deriv Sigmoid (sIb st i j) (dIb i j) in
  let dZb := fun i j => dC i j * sIb st i j in
  let dZ := fun i j => act_deriv a (sZb st i j) (dZb i j) in
  mkD dZ dI dF dO dC.
(** Deltas of step T1 - 1 - k.  Fb[T1] (multiplied with dCa[T1] = 0) is the context
    [cF]. *)
Fixpoint lstm_ds (p : lstm_par) (deltas : seq) (st : nat -> lstm_st) (Ca : seq) (cF : mat) (T1 k : nat) : lstm_d :=
  match k with
  | O => lstm_bstep p (deltas (T1 - 1)%nat) lstm_d0 cF (st (T1 - 1)%nat) (Ca (prev T1 (T1 - 1)))
  | S k' => let t := (T1 - 1 - S k')%nat in
      lstm_bstep p (deltas t) (lstm_ds p deltas st Ca cF T1 k') (sFb (st (S t))) (st t) (Ca (prev T1 t))
  end.
(** The rest of backward_pass (207-278).  [dy_last] is dy[-1] and [dCa_last] is dCa[-1], which are
    used in 258-261 and 273-278: never assigned to, so dy[-1] = 0 (allocated by zeros)
    and dCa[-1] = 0. *)
Definition lstm_backward (T1 B : nat) (p : lstm_par) (x : seq) (y Ca : seq) (st : nat -> lstm_st) (cF : mat) (deltas : seq) (dx : mat) (g : lstm_par) : mat * lstm_par :=
  let d := fun t => lstm_ds p deltas st Ca cF T1 (T1 - 1 - t) in
  let dy_last : mat := fun _ _ => 0 in
  let dCa_last : mat := fun _ _ => 0 in
  let ti := fun t => dIa (d t) in let tf := fun t => dFa (d t) in let to := fun t => dOa (d t) in let tz := fun t => dZa (d t) in
  let dx := dot_add_mm n (flat B ti) (pWi p) dx in
  let dx := dot_add_mm n (flat B tf) (pWf p) dx in
  let dx := dot_add_mm n (flat B to) (pWo p) dx in
  let dx := dot_add_mm n (flat B tz) (pWz p) dx in
  let gW := fun tg dW => dot_add_mm (T1 * B) (trans (flat B tg)) (flat B x) dW in
  let gb := fun tg (db : vec) => fun j => db j + sum0 (T1 * B) (flat B tg) j in
  let gpo := fun j => ppo g j + sum0 (T1 * B) (fun r j => flat B Ca r j * flat B to r j) j in
  let gR := fun (tg : seq) dR =>
    dot_add_mm B (trans (tg O)) dy_last (dot_add_mm ((T1 - 1) * B) (trans (flat B (tail tg))) (flat B y) dR) in
  let gp := fun (tg : seq) (dp : vec) => fun j => dp j + sum0 ((T1 - 1) * B) (fun r j => flat B Ca r j * flat B (tail tg) r j) j in
  let gpi := fun j => gp ti (ppi g) j + sum0 B (fun i j => dCa_last i j * ti O i j) j in
  let gpf := fun j => gp tf (ppf g) j + sum0 B (fun i j => dCa_last i j * ti O i j) j in
  (dx, mkPar (gW tz (pWz g)) (gW ti (pWi g)) (gW tf (pWf g)) (gW to (pWo g)) gpi gpf gpo
         (gR tz (pRz g)) (gR ti (pRi g)) (gR tf (pRf g)) (gR to (pRo g)) (gb tz (pbz g)) (gb ti (pbi g)) (gb tf (pbf g)) (gb to (pbo g))).
End Lstm.

(** ** Clockwork (clockwork_layer.py) *)
(** np.fmod for non-zero divisors; for 0 the result is NaN, which is != 0. *)
Definition trunc (x : R) : Z := if Rle_dec 0 x then Int_part x else (- Int_part (- x))%Z.
Definition fmod (x y : R) : R := x - y * IZR (trunc (x / y)).
Definition stays (t : nat) (timing : R) : bool :=
  if Req_EM_T timing 0 then true else if Req_EM_T (fmod (INR t) timing) 0 then false else true.
Section Clockwork.
Variables (a : act) (nin n : nat) (timing : vec).
(** forward_pass (55-79).  Results: outputs[t]; undone for the units that stay. *)
Fixpoint cw_y (W R : mat) (bias : vec) (x : seq) (ctx : mat) (t : nat) : mat :=
  let before := match t with O => ctx | S k => cw_y W R bias x ctx k end in
  let Ha := dot_mm nin (x t) (trans W) in
  let Ha := fun i j => Ha i j + bias j in
  let Ha := dot_add_mm n before (trans R) Ha in
  let out := fun i j => act_f a (Ha i j) in
  if (0 <? t)%nat then fun i j => if stays t (timing j) then before i j else out i j else out.
Definition cw_forward (T1 : nat) (W R : mat) (bias : vec) (x : seq) (ctx : mat) : seq :=
  fun t => if (t <? T1)%nat then cw_y W R bias x ctx t else ctx.
(** backward_pass (81-122): the pairs (dHa[t], dHb[t]) at t = T - k when the loop has
    reached t; dHa[t] is set to zero for the units that stay at t in the next iteration
    (or left as it is for t = 0, where no unit stays). *)
Fixpoint cw_d (R : mat) (outputs doutputs : seq) (T k : nat) : mat * mat :=
  match k with
  | O => (fun i j => act_deriv a (outputs T i j) (doutputs T i j), doutputs T)
  | S k' => let t := (T - S k')%nat in
      let '(dHa1, dHb1) := cw_d R outputs doutputs T k' in
      let dHb := fun i j => if stays (S t) (timing j) then doutputs t i j + dHb1 i j else doutputs t i j in
      let dHa1 := fun i j => if stays (S t) (timing j) then 0 else dHa1 i j in
      let dHb := dot_add_mm n dHa1 R dHb in
      (fun i j => act_deriv a (outputs t i j) (dHb i j), dHb)
  end.
(** dHa[t] after the loop: step T - k is masked unless it is step 0. *)
Definition cw_dHa (R : mat) (outputs doutputs : seq) (T t : nat) : mat :=
  let d := fst (cw_d R outputs doutputs T (T - t)) in
  if (0 <? t)%nat then fun i j => if stays t (timing j) then 0 else d i j else d.
Definition cw_backward (T1 B : nat) (W R : mat) (inputs outputs doutputs : seq) (dinputs dW dR : mat) (dbias : vec) : mat * mat * mat * vec :=
  let T := (T1 - 1)%nat in
  let dHa := cw_dHa R outputs doutputs T in
  let flat_dHa := flat B dHa in
  let dinputs := dot_add_mm n flat_dHa W dinputs in
  let dW := dot_add_mm (T1 * B) (trans flat_dHa) (flat B inputs) dW in
  let dbias_tmp := sum0 (T1 * B) flat_dHa in
  let dbias := fun j => dbias j + dbias_tmp j in
  let dR := dot_add_mm ((T1 - 1) * B) (trans (flat B (tail dHa))) (flat B outputs) dR in
  let dR := dot_add_mm B (trans (dHa O)) (outputs T1) dR in
  (dinputs, dW, dR, dbias).
End Clockwork.
