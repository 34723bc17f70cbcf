(** Carrying on a sequence with a context (network.py:405-430, buffers.py:112-136), over
    exact reals: networks as functions of whole sequences and contexts. *)
From Coq Require Import Reals Arith List.
From Verif Require Import NumBase NumpyModel LayersModel RecurrentModel NetworkModel NetLayersModel.
Import ListNotations.
Open Scope R_scope.

(** A layer working on sequences: the activations of one time step are cells of a
    vector; [r_in] and [r_out] list the cells of the inputs and outputs of the layer.
    [r_run T c x] are the outputs for the inputs [x] of [T] steps with the context [c]
    (outputs[-1], internals[-1]), [r_ctx T c x] the rows T-1 of the buffers that have a
    context, which get_context copies and apply_context writes behind the steps of
    the next sequence. *)
Record rlayer := mkR {
  r_in : list nat;
  r_out : list nat;
  r_run : nat -> vec -> (nat -> vec) -> nat -> vec;
  r_ctx : nat -> vec -> (nat -> vec) -> vec }.

(** forward_pass over [T] steps with contexts [cs] (one per layer): activations and the
    contexts of get_context afterwards *)
Fixpoint seq_forward (T : nat) (ls : list rlayer) (cs : list vec) (V : nat -> vec) : (nat -> vec) * list vec :=
  match ls with
  | [] => (V, [])
  | l :: r =>
      let x := fun t => read (r_in l) (V t) in
      let c := hd none cs in
      let y := r_run l T c x in
      let '(V', cs') := seq_forward T r (tl cs) (fun t => write (r_out l) (y t) (V t)) in
      (V', r_ctx l T c x :: cs')
  end.
(** The data from step [a] on *)
Definition from (a : nat) {A} (x : nat -> A) : nat -> A := fun t => x (a + t)%nat.

(** Layers that treat every time step alike (FullyConnected, activation functions, ...) *)
Definition pointwise (f : vec -> vec) (ins outs : list nat) : rlayer := mkR ins outs (fun _ _ x t => f (x t)) (fun _ _ _ => none).
Definition fc_rows (a : act) (nin nout : nat) (W : mat) (b : vec) : vec -> vec := fun x => vec_of nout (fc_forward nin a W b (mat_of nin x)).
(** Recurrent: the context is the row of its outputs *)
Definition rec_rlayer (a : act) (nin n : nat) (W U : mat) (b : vec) (ins outs : list nat) : rlayer :=
  mkR ins outs
    (fun T c x t => vec_of n (rec_forward a nin n T W U b (fun t => mat_of nin (x t)) (mat_of n c) t))
    (fun T c x => vec_of n (rec_forward a nin n T W U b (fun t => mat_of nin (x t)) (mat_of n c) (T - 1)%nat)).
(** LSTM: rows of its outputs and of Ca, for a batch of [B] sequences.  The other internals have
    a context too but their row -1 is never read in a forward pass. *)
Definition lstm_rlayer (a : act) (nin n B : nat) (p : lstm_par) (ins outs : list nat) : rlayer :=
  let y := fun T c (x : nat -> vec) => lstm_y a nin n T p (fun t => mat_of nin (x t)) (mat_of n c) (mat_of n (shift (B * n) c)) in
  let Ca := fun T c (x : nat -> vec) => lstm_Ca a nin n T p (fun t => mat_of nin (x t)) (mat_of n c) (mat_of n (shift (B * n) c)) in
  mkR ins outs (fun T c x t => vec_of n (y T c x t)) (fun T c x => cat (B * n) (vec_of n (y T c x (T - 1)%nat)) (vec_of n (Ca T c x (T - 1)%nat))).
Definition cw_rlayer (a : act) (nin n : nat) (timing : vec) (W U : mat) (b : vec) (ins outs : list nat) : rlayer :=
  mkR ins outs
    (fun T c x t => vec_of n (cw_forward a nin n timing T W U b (fun t => mat_of nin (x t)) (mat_of n c) t))
    (fun T c x => vec_of n (cw_forward a nin n timing T W U b (fun t => mat_of nin (x t)) (mat_of n c) (T - 1)%nat)).
(** Feeding a sequence in pieces of the given lengths, each with the context of the one
    before: net.provide_external_data(piece); net.forward_pass(context=c); c = net.get_context() *)
Fixpoint seq_pieces (lens : list nat) (ls : list rlayer) (cs : list vec) (V : nat -> vec) : nat -> vec :=
  match lens with
  | [] => V
  | T :: r =>
      let '(V1, cs1) := seq_forward T ls cs V in
      fun t => if (t <? T)%nat then V1 t else seq_pieces r ls cs1 (from T V) (t - T)%nat
  end.
