(** The passes of a network on one memory: every buffer is a list of cells, layers read
    and write the cells of their buffers. *)
From Coq Require Import Reals Arith List.
From Verif Require Import NumBase NumpyModel NetworkModel NetLayersModel.
Import ListNotations.
Open Scope R_scope.

(** A layer with the cells of its buffers.  The inputs are those that get deltas, the
    outputs those whose deltas are used; targets, masks and the timing of clockwork layers
    are read from the memory when the layer is run ([m_kind]).  [m_loss] is outputs.loss of a Loss layer. *)
Record mlayer := mkM {
  m_kind : vec -> kind;
  m_in : list nat;
  m_out : list nat;
  m_par : list nat;
  m_din : list nat;
  m_dout : list nat;
  m_grad : list nat;
  m_loss : list nat
}.
(** One layer's forward_pass (network.py:429-430) *)
Definition run_forward (L : mlayer) (m : vec) : vec :=
  let k := m_kind L m in
  let p := read (m_par L) m in
  let x := read (m_in L) m in
  write (m_loss L) (fun _ => k_loss k p x) (write (m_out L) (k_fwd k p x) m).
Fixpoint mem_forward (Ls : list mlayer) (m : vec) : vec :=
  match Ls with [] => m | L :: r => mem_forward r (run_forward L m) end.
(** get_loss_values()['total_loss'] (network.py:447-475) *)
Fixpoint mem_loss (Ls : list mlayer) (m : vec) : R :=
  match Ls with [] => 0 | L :: r => Rsum (length (m_loss L)) (read (m_loss L) m) + mem_loss r m end.
(** One layer's backward_pass *)
Definition run_backward (L : mlayer) (m : vec) : vec :=
  let k := m_kind L m in
  let y := read (m_out L) m in
  let dy := read (m_dout L) m in
  let '(dx, g) := k_bwd k (read (m_par L) m) (read (m_in L) m) y dy (read (m_grad L) m) in
  write (m_grad L) g (write (m_dout L) (k_dout k y dy) (add_to (m_din L) dx m)).
(** layers in reverse order (network.py:443-444) *)
Fixpoint mem_backward (Ls : list mlayer) (m : vec) : vec :=
  match Ls with [] => m | L :: r => run_backward L (mem_backward r m) end.
