(** Model of the value and gradient modifiers (brainstorm/value_modifiers.py), over
    exact reals. *)
From Coq Require Import Reals Arith List.
From Verif Require Import NumBase NumpyModel.
Import ListNotations.
Open Scope R_scope.

(** ConstrainL2Norm.__call__ (71-83).  [dims] is len(view.shape); the view is given as
    the matrix with shape (shape[0], size / shape[0]), [cols] = size / shape[0].  [fmax]
    is np.finfo(handler.dtype).max. *)
Definition constrain_l2 (fmax limit : R) (dims cols : nat) (m : mat) : mat :=
  if (dims <? 2)%nat then m else
  let sq_norm := sum1 cols (fun i j => m i j * m i j) in
  let divisor := fun i => 1 / limit * sqrt (sq_norm i) in
  let divisor := fun i => clip 1 fmax (divisor i) in
  fun i j => m i j / divisor i.

(** ClipValues.__call__ (109-110) *)
Definition clip_values (low high : R) (v : vec) : vec := fun i => clip low high (v i).

(** MaskValues.__call__ (140-145); the copy of the mask on the device has the same
    values. *)
Definition mask_values (mask v : vec) : vec := fun i => v i * mask i.

(** FreezeValues (164-178): the members weights and device_weights.  [other] tells that
    device_weights is not an array of the given handler. *)
Record freeze := mkFreeze { fz_weights : option vec; fz_device : option vec }.
Definition freeze_new (weights : option vec) : freeze := mkFreeze weights None.
Definition freeze_call (f : freeze) (other : bool) (view : vec) : freeze * vec :=
  let weights := match fz_weights f with None => view | Some w => w end in
  let device := match fz_device f with Some d => if other then weights else d | None => weights end in
  (mkFreeze (Some weights) (Some device), device).
(** A sequence of calls, the values found before each call given *)
Fixpoint freeze_calls (f : freeze) (calls : list (bool * vec)) : list vec :=
  match calls with
  | [] => []
  | (other, view) :: rest => let '(f', out) := freeze_call f other view in out :: freeze_calls f' rest
  end.

(** L1Decay.__call__ (193-196), L2Decay.__call__ (211-212) *)
Definition l1_modifier (factor : R) (params grads : vec) : vec := fun i => grads i + factor * sign (params i).
Definition l2_modifier (factor : R) (params grads : vec) : vec := fun i => grads i + factor * params i.
