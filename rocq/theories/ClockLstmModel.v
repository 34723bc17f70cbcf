(** Model of the ClockworkLstm layer (brainstorm/layers/clockwork_lstm_layer.py), over
    exact reals; conventions as in RecurrentModel. *)
From Coq Require Import Reals Arith List.
From Verif Require Import NumBase NumpyModel RecurrentModel.
Import ListNotations.
Open Scope R_scope.

Section ClockLstm.
Variables (a : act) (nin n : nat) (timing : vec).
(** One step of forward_pass (121-167): the step of an LSTM (121-157), after which for
    t > 0 the cells and outputs of the units that stay are undone (159-167). *)
Definition cl_step (t : nat) (p : lstm_par) (x y c : mat) : lstm_st :=
  let st := lstm_step a nin n p x y c in
  if (0 <? t)%nat then
    mkSt (sZa st) (sZb st) (sIa st) (sIb st) (sFa st) (sFb st) (sOa st) (sOb st)
      (fun i j => if stays t (timing j) then c i j else sCa st i j) (sCb st)
      (fun i j => if stays t (timing j) then y i j else sy st i j)
  else st.
(** All steps; [cy], [cc] are the contexts y[-1] and Ca[-1] *)
Fixpoint cl_state (p : lstm_par) (x : seq) (cy cc : mat) (t : nat) : lstm_st :=
  match t with
  | O => cl_step O p (x O) cy cc
  | S k => cl_step (S k) p (x (S k)) (sy (cl_state p x cy cc k)) (sCa (cl_state p x cy cc k))
  end.
(** The buffers y and Ca, with their contexts *)
Definition cl_y (T1 : nat) (p : lstm_par) (x : seq) (cy cc : mat) : seq := fun t => if (t <? T1)%nat then sy (cl_state p x cy cc t) else cy.
Definition cl_Ca (T1 : nat) (p : lstm_par) (x : seq) (cy cc : mat) : seq := fun t => if (t <? T1)%nat then sCa (cl_state p x cy cc t) else cc.

(** The deltas of a step after its iteration of the loop of backward_pass: those of the
    gates and dCa[t], and dy[t]. *)
Record cl_d := mkCD { cd_d : lstm_d; cd_dy : mat }.
(** Row time_size before the loop (200, and buffers cleared before a backward pass) *)
Definition cl_d0 : cl_d := mkCD lstm_d0 (fun _ _ => 0).
(** _h.fill_if(m, 0, cond) *)
Definition silence (t : nat) (m : mat) : mat := fun i j => if stays t (timing j) then 0 else m i j.
(** 0 + what _h.add_into_if(m, ..., cond) adds *)
Definition carried (t : nat) (m : mat) : mat := fun i j => if stays t (timing j) then 0 + m i j else 0.
(** One iteration (203-252).  [nx]: the deltas of step t+1 and [Fn] = Fb[t+1], both as
    iteration t+1 left them; [st] the values of step t, [c] = Ca[t-1]. *)
Definition cl_bstep (t : nat) (p : lstm_par) (deltas : mat) (nx : cl_d) (Fn : mat) (st : lstm_st) (c : mat) : cl_d :=
  let dy := carried (S t) (cd_dy nx) in                           (* 245, in iteration t+1 *)
  let dC := carried (S t) (dCa (cd_d nx)) in                      (* 246, in iteration t+1 *)
  let nx := cd_d nx in
  let dy := fun i j => dy i j + deltas i j in                     (* 205 *)
  let dy := dot_add_mm n (dIa nx) (pRi p) dy in                   (* 210-213 *)
  let dy := dot_add_mm n (dFa nx) (pRf p) dy in
  let dy := dot_add_mm n (dOa nx) (pRo p) dy in
  let dy := dot_add_mm n (dZa nx) (pRz p) dy in
  let dC := fun i j => dC i j + dIa nx i j * ppi p j in           (* 215-216 *)
  let dC := fun i j => dC i j + dFa nx i j * ppf p j in
  let dOb := fun i j => dy i j * sCb st i j in                    (* 219-223 *)
  let dOb := silence t dOb in
  let dO := fun i j => act_deriv Sigmoid (sOb st i j) (dOb i j) in
  let dC := fun i j => dC i j + dO i j * ppo p j in
  let dCb := fun i j => dy i j * sOb st i j in                    (* 226-230 *)
  let dCb := fun i j => act_deriv a (sCb st i j) (dCb i j) in
  let dCb := silence t dCb in
  let dC := fun i j => dC i j + dCb i j in
  let dC := fun i j => dC i j + dCa nx i j * Fn i j in
  let dFb := fun i j => dC i j * c i j in                         (* 233-234 *)
  let dF := fun i j => act_deriv Sigmoid (sFb st i j) (dFb i j) in
  let dIb := fun i j => dC i j * sZb st i j in                    (* 237-238 *)
  let dI := fun i j => act_deriv Sigmoid (sIb st i j) (dIb i j) in
  let dZb := fun i j => dC i j * sIb st i j in                    (* 241-242 *)
  let dZ := fun i j => act_deriv a (sZb st i j) (dZb i j) in
  mkCD (mkD (silence t dZ) (silence t dI) (silence t dF) dO dC) dy.  (* 249-251 *)
(** Deltas of step T1 - 1 - k *)
Fixpoint cl_ds (p : lstm_par) (deltas : seq) (st : nat -> lstm_st) (Ca : seq) (cF : mat) (T1 k : nat) : cl_d :=
  match k with
  | O => cl_bstep (T1 - 1) p (deltas (T1 - 1)%nat) cl_d0 cF (st (T1 - 1)%nat) (Ca (prev T1 (T1 - 1)))
  | S k' => let t := (T1 - 1 - S k')%nat in
      cl_bstep t p (deltas t) (cl_ds p deltas st Ca cF T1 k') (silence (S t) (sFb (st (S t)))) (st t) (Ca (prev T1 t))
  end.
(** backward_pass (169-326).  dy[-1] and dCa[-1] are 0 but for what iteration 0 adds
    (245-246).  The gradient of timing is not touched. *)
Definition cl_backward (T1 B : nat) (p : lstm_par) (x : seq) (y Ca : seq) (st : nat -> lstm_st) (cF : mat) (deltas : seq) (dx : mat) (g : lstm_par) : mat * lstm_par :=
  let d := fun t => cl_ds p deltas st Ca cF T1 (T1 - 1 - t) in
  let dy_last : mat := carried O (cd_dy (d O)) in
  let dCa_last : mat := carried O (dCa (cd_d (d O))) in
  let ti := fun t => dIa (cd_d (d t)) in let tf := fun t => dFa (cd_d (d t)) in let to := fun t => dOa (cd_d (d t)) in let tz := fun t => dZa (cd_d (d t)) in
  let dx := dot_add_mm n (flat B ti) (pWi p) dx in
  let dx := dot_add_mm n (flat B tf) (pWf p) dx in
  let dx := dot_add_mm n (flat B to) (pWo p) dx in
  let dx := dot_add_mm n (flat B tz) (pWz p) dx in
  let gW := fun tg dW => dot_add_mm (T1 * B) (trans (flat B tg)) (flat B x) dW in
  let gb := fun tg (db : vec) => fun j => db j + sum0 (T1 * B) (flat B tg) j in
  let gpo := fun j => ppo g j + sum0 (T1 * B) (fun r j => flat B Ca r j * flat B to r j) j in
  let gR := fun (tg : seq) dR =>
    dot_add_mm B (trans (tg O)) dy_last (dot_add_mm ((T1 - 1) * B) (trans (flat B (tail tg))) (flat B y) dR) in
  let gp := fun (tg : seq) (dp : vec) => fun j => dp j + sum0 ((T1 - 1) * B) (fun r j => flat B Ca r j * flat B (tail tg) r j) j in
  let gpi := fun j => gp ti (ppi g) j + sum0 B (fun i j => dCa_last i j * ti O i j) j in
  let gpf := fun j => gp tf (ppf g) j + sum0 B (fun i j => dCa_last i j * ti O i j) j in
  (dx, mkPar (gW tz (pWz g)) (gW ti (pWi g)) (gW tf (pWf g)) (gW to (pWo g)) gpi gpf gpo
         (gR tz (pRz g)) (gR ti (pRi g)) (gR tf (pRf g)) (gR to (pRo g)) (gb tz (pbz g)) (gb ti (pbi g)) (gb tf (pbf g)) (gb to (pbo g))).
End ClockLstm.
