(** Model of brainstorm/training/schedules.py and of the update rules in
    brainstorm/training/steppers.py, over the real numbers. *)
From Coq Require Import String List Arith ZArith Bool Reals.
Import ListNotations.
Open Scope string_scope.
Open Scope list_scope.
Open Scope nat_scope.

(** current = epoch_nr if timescale == 'epoch' else update_nr
    (schedules.py:62, 105, 140) *)
Definition current (epoch_nr update_nr : nat) (timescale : string) : nat :=
  if String.eqb timescale "epoch" then epoch_nr else update_nr.

(** schedules.py:60-69 Linear.__call__; [None] is the ZeroDivisionError for
    interval 0 or num_changes 0. *)
Definition linear (initial_value final_value : R) (num_changes : nat)
  (epoch_nr update_nr : nat) (timescale : string) (interval : nat) : option R :=
  if interval =? 0 then None
  else
    let c := current epoch_nr update_nr timescale / interval in
    if num_changes <? c then Some final_value
    else if num_changes =? 0 then None
    else Some (initial_value + ((final_value - initial_value) / INR num_changes) * INR c)%R.

(** Python's max(minimum, v) and min(maximum, v); the bounds may be infinite
    ([None]: -inf for the minimum, +inf for the maximum). *)
Definition py_max (minimum : option R) (v : R) : R :=
  match minimum with None => v | Some m => if Rlt_dec m v then v else m end.
Definition py_min (maximum : option R) (v : R) : R :=
  match maximum with None => v | Some m => if Rlt_dec v m then v else m end.

(** schedules.py:103-108 Exponential.__call__ *)
Definition exponential (initial_value factor : R) (minimum maximum : option R)
  (epoch_nr update_nr : nat) (timescale : string) (interval : nat) : option R :=
  if interval =? 0 then None
  else
    let new_value := (initial_value * factor ^ (current epoch_nr update_nr timescale / interval))%R in
    Some (py_min maximum (py_max minimum new_value)).

(** schedules.py:142-145, the loop of MultiStep.__call__ over
    i in range(1, len(steps)); [prev] is steps[i - 1], [rest] the steps from i on
    without the final np.inf, [i1] is i - 1. *)
Fixpoint multi_step_loop (prev : Z) (rest : list Z) (cur : Z) (i1 : nat) : nat :=
  match rest with
  | [] => if (prev <=? cur)%Z then i1 else 0     (* steps[i] = np.inf *)
  | s :: r => if (prev <=? cur)%Z && (cur <? s)%Z then i1 else multi_step_loop s r cur (S i1)
  end.
(** schedules.py:122-146 MultiStep.__init__ and __call__; [None] are the
    AssertionErrors. *)
Definition multi_step {A} (initial_value : A) (steps : list Z) (values : list A)
  (epoch_nr update_nr : nat) (timescale : string) (interval : nat) : option A :=
  if negb (length steps =? length values) then None
  else if negb (interval =? 1) then None
  else nth_error (initial_value :: values)
         (multi_step_loop 0 steps (Z.of_nat (current epoch_nr update_nr timescale)) 0).

(** schedules.py:172-174 DecreaseAfterEpoch.__call__ (T an int; the maximum is
    not 0 for epoch_nr >= 0) *)
Definition decrease_after_epoch (initial_value : R) (T : Z) (epoch_nr : nat) : R :=
  (initial_value * IZR T / IZR (Z.max (Z.of_nat epoch_nr + 1) T))%R.

(** * Steppers *)
(** Parameters, gradients, velocities: flat vectors. *)
Definition vec := nat -> R.
Definition zeros : vec := fun _ => 0%R.
(** handler.mult_st(s, t, out), numpy_handler.py:242-243 *)
Definition mult_st (s : R) (t : vec) : vec := fun i => (s * t i)%R.
(** handler.mult_add_st(s, t, out): out += s * t, numpy_handler.py:230-231 *)
Definition mult_add_st (s : R) (t out : vec) : vec := fun i => (out i + s * t i)%R.
(** handler.add_tt, numpy_handler.py:86-87 *)
Definition add_tt (a b : vec) : vec := fun i => (a i + b i)%R.

(** Parameters of the network and the stepper's buffer (update / velocity). *)
Record sstate := mkS { s_params : vec; s_buf : vec }.
(** steppers.py:57-59, 93-95 start *)
Definition stepper_start (params : vec) : sstate := mkS params zeros.

Section Steppers.
  (** forward_pass and backward_pass on the current batch: the gradient buffer as
      a function of the number of the update and of the parameters. *)
  Variable gradient : nat -> vec -> vec.

  (** steppers.py:61-69 SgdStepper.run *)
  Definition sgd_run (learning_rate : R) (k : nat) (s : sstate) : sstate :=
    let gradients := gradient k (s_params s) in
    let update := mult_st (- learning_rate) gradients in
    mkS (add_tt update (s_params s)) update.

  (** steppers.py:98-101, 126-129 *)
  Definition effective_rate (learning_rate momentum : R) (scale_learning_rate : bool) : R :=
    if scale_learning_rate then (learning_rate * (1 - momentum))%R else learning_rate.

  (** steppers.py:97-114 MomentumStepper.run *)
  Definition momentum_run (learning_rate momentum : R) (scale_learning_rate : bool) (k : nat) (s : sstate) : sstate :=
    let rate := effective_rate learning_rate momentum scale_learning_rate in
    let gradients := gradient k (s_params s) in
    let velocity := mult_st momentum (s_buf s) in
    let velocity := mult_add_st (- rate) gradients velocity in
    mkS (add_tt velocity (s_params s)) velocity.

  (** steppers.py:125-145 NesterovStepper.run *)
  Definition nesterov_run (learning_rate momentum : R) (scale_learning_rate : bool) (k : nat) (s : sstate) : sstate :=
    let rate := effective_rate learning_rate momentum scale_learning_rate in
    let velocity := mult_st momentum (s_buf s) in
    let params := add_tt velocity (s_params s) in
    let gradients := gradient k params in
    mkS (mult_add_st (- rate) gradients params) (mult_add_st (- rate) gradients velocity).

  (** n updates; [run k] is the k-th run (its rates may be changed by schedules). *)
  Fixpoint updates (run : nat -> sstate -> sstate) (n : nat) (s : sstate) : sstate :=
    match n with 0 => s | S m => run m (updates run m s) end.
End Steppers.
