(** Model of the forward and backward pass of a whole network (network.py:405-445 and
    472-508) over exact reals.

    The output buffers of all layers are cells of one vector of activations; since the
    buffers of inputs and of the outputs connected to them are views of the same memory
    (C12), the inputs of a layer are given by the cells they consist of: [l_in] lists the cells of all
    inputs of a layer one after the other, [l_out] those of all its outputs.  A cell may
    occur in the inputs of many layers and more than once in the inputs of one layer.
    The deltas have the same addresses (C12_deltas).  Parameters, gradients and internals
    belong to one layer each. *)
From Coq Require Import Reals Arith List.
From Verif Require Import NumBase NumpyModel.
Import ListNotations.
Open Scope R_scope.

(** Results of a layer's backward_pass: what is added to the input deltas, the new
    contents of output deltas, internals, backward-only internals and gradients *)
Record bres := mkB { b_din : vec; b_dout : vec; b_int : vec; b_dint : vec; b_grad : vec }.
Record layer := mkL {
  l_in : list nat;
  l_out : list nat;
  l_np : nat;                                    (* number of parameters *)
  l_fwd : vec -> vec -> vec * vec;               (* parameters, inputs -> outputs, internals *)
  l_loss : vec -> vec -> R;                      (* parameters, inputs -> outputs.loss of a Loss layer, 0 for others *)
  l_bwd : vec -> vec -> vec -> vec -> vec -> vec -> vec -> bres
    (* parameters, inputs, outputs, internals, output deltas, backward-only internals, gradients *)
}.
Record state := mkS {
  V : vec;                (* activations *)
  DV : vec;               (* deltas *)
  In_ : nat -> vec;       (* internals, by layer *)
  DIn : nat -> vec;       (* backward-only internals *)
  P : nat -> vec;         (* parameters *)
  G : nat -> vec          (* gradients *)
}.
(** reading and writing the cells of a list *)
Definition cut (n : nat) (v : vec) : vec := fun k => if (k <? n)%nat then v k else 0.
Definition read (cells : list nat) (m : vec) : vec := cut (length cells) (fun k => m (nth k cells O)).
Fixpoint write (cells : list nat) (v : vec) (m : vec) : vec :=
  match cells with
  | [] => m
  | c :: r => write r (fun k => v (S k)) (fun a => if (a =? c)%nat then v O else m a)
  end.
Fixpoint add_to (cells : list nat) (v : vec) (m : vec) : vec :=
  match cells with
  | [] => m
  | c :: r => add_to r (fun k => v (S k)) (fun a => if (a =? c)%nat then m a + v O else m a)
  end.
Definition upd {A} (i : nat) (v : A) (f : nat -> A) : nat -> A := fun j => if (j =? i)%nat then v else f j.

(** One layer's forward_pass (network.py:429-430) *)
Definition layer_forward (i : nat) (l : layer) (s : state) : state :=
  let '(y, int) := l_fwd l (P s i) (read (l_in l) (V s)) in
  mkS (write (l_out l) y (V s)) (DV s) (upd i int (In_ s)) (DIn s) (P s) (G s).
Fixpoint forward_from (i : nat) (ls : list layer) (s : state) : state :=
  match ls with [] => s | l :: r => forward_from (S i) r (layer_forward i l s) end.
Definition net_forward (ls : list layer) (s : state) : state := forward_from O ls s.
(** get_loss_values()['total_loss'] (447-474) *)
Fixpoint losses_from (i : nat) (ls : list layer) (s : state) : R :=
  match ls with
  | [] => 0
  | l :: r => l_loss l (P s i) (read (l_in l) (V s)) + losses_from (S i) r s
  end.
Definition total_loss (ls : list layer) (s : state) : R := losses_from O ls s.

(** buffers.py:147-150 *)
Definition clear_backward (s : state) : state :=
  mkS (V s) (fun _ => 0) (In_ s) (fun _ _ => 0) (P s) (fun _ _ => 0).
Definition layer_backward (i : nat) (l : layer) (s : state) : state :=
  let r := l_bwd l (P s i) (read (l_in l) (V s)) (read (l_out l) (V s)) (In_ s i) (read (l_out l) (DV s)) (DIn s i) (G s i) in
  mkS (V s) (write (l_out l) (b_dout r) (add_to (l_in l) (b_din r) (DV s))) (upd i (b_int r) (In_ s)) (upd i (b_dint r) (DIn s)) (P s) (upd i (b_grad r) (G s)).
(** layers in reverse order (443-444) *)
Fixpoint backward_from (i : nat) (ls : list layer) (s : state) : state :=
  match ls with [] => s | l :: r => layer_backward i l (backward_from (S i) r s) end.
(** backward_pass (432-445) without gradient modifiers *)
Definition net_backward (ls : list layer) (s : state) : state := backward_from O ls (clear_backward s).
