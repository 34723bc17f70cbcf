(** Model of the numerical operations of brainstorm/handlers/numpy_handler.py, over
    exact real numbers (rounding, overflow, infinities and NaN are not modelled). *)
From Coq Require Import Reals Arith List.
From Verif Require Import NumBase.
Import ListNotations.
Open Scope R_scope.

(** Arrays: a vector and a matrix are functions of their indices; sizes are passed to
    the operations that sum. *)
Definition vec := nat -> R.
Definition mat := nat -> nat -> R.

(** numpy's x > 0, x >= 0 and x < 0 as numbers *)
Definition gt0 (x : R) : R := if Rlt_dec 0 x then 1 else 0.
Definition ge0 (x : R) : R := if Rle_dec 0 x then 1 else 0.
Definition lt0 (x : R) : R := if Rlt_dec x 0 then 1 else 0.

(** ** Activation functions (base_handler.py:41-71) *)
Inductive act := Sigmoid | Rel | Tanh | Linear | El.
(** numpy_handler.py:277-278, 283-287, 297-298, 303-305; with separate arrays for
    input and output. *)
Definition act_f (a : act) (x : R) : R :=
  match a with
  | Sigmoid => if Rle_dec 0 x then 1 / (1 + exp (- x)) else exp x / (1 + exp x)
  | Rel => x * gt0 x
  | Tanh => (exp x - exp (- x)) / (exp x + exp (- x))
  | Linear => x
  | El => x * ge0 x + (exp x - 1) * lt0 x
  end.
(** numpy_handler.py:280-281, 289-290, 300-301, 307-309: from the output [y] and the
    delta [dy]. *)
Definition act_deriv (a : act) (y dy : R) : R :=
  match a with
  | Sigmoid => dy * y * (1 - y)
  | Rel => dy * gt0 y
  | Tanh => dy * (1 - y * y)
  | Linear => dy
  | El => dy * ge0 y + dy * (y + 1) * lt0 y
  end.
(** sigmoid(x, x), as used in place (base_handler.py:43): the second mask x < 0 is
    evaluated after the first assignment has overwritten [x]. *)
Definition sigmoid_inplace (x : R) : R :=
  let x1 := if Rle_dec 0 x then 1 / (1 + exp (- x)) else x in
  if Rlt_dec x1 0 then exp x1 / (1 + exp x1) else x1.
(** The other functions read their argument before writing. *)
Definition act_inplace (a : act) (x : R) : R := match a with Sigmoid => sigmoid_inplace x | _ => act_f a x end.

(** ** Matrix operations *)
(** dot_mm, dot_add_mm (176-185); [n] is the inner dimension. *)
Definition dot_mm (n : nat) (a b : mat) : mat := fun i j => Rsum n (fun k => a i k * b k j).
Definition trans (a : mat) : mat := fun i j => a j i.
Definition dot_add_mm (n : nat) (a b out : mat) : mat := fun i j => out i j + dot_mm n a b i j.
(** sum_t with axis=0 and axis=1 (268-273) *)
Definition sum0 (rows : nat) (a : mat) : vec := fun j => Rsum rows (fun i => a i j).
Definition sum1 (cols : nat) (a : mat) : vec := fun i => Rsum cols (fun j => a i j).
(** sign_t: np.sign *)
Definition sign (x : R) : R := if Rlt_dec 0 x then 1 else if Rlt_dec x 0 then -1 else 0.
(** clip_t: np.clip = minimum(maximum(a, lo), hi) *)
Definition clip (lo hi x : R) : R := Rmin (Rmax x lo) hi.
(** np.amax of a row of [S n] entries *)
Fixpoint amax (n : nat) (f : vec) : R := match n with O => f O | S k => Rmax (amax k f) (f (S k)) end.
(** softmax_m (292-295) for rows of [S n] entries *)
Definition softmax (n : nat) (x : vec) : vec := fun j =>
  let e := fun k => exp (x k - amax n x) in e j / Rsum (S n) e.
