(** Trainer.train on a network created from an architecture: the trainer's loop (TrainerModel) with
    the updates of ModNetModel and hooks that evaluate the network or change the stepper. *)
From Coq Require Import String List Reals Arith Bool.
From Verif Require Import NumBase NumpyModel NetworkModel MemoryPassModel HubModel LayoutModel UtilsModel ShapesModel SetupModel NetMemoryModel SchedulesModel TrainNetModel ModifiersModel ModNetModel EvalNetModel TrainerModel.
From Verif Require ScorersModel.
Import ListNotations.
Open Scope string_scope.
Open Scope list_scope.
Open Scope nat_scope.

(** The class of the stepper (steppers.py:38-145); the flag is scale_learning_rate. *)
Inductive method := MSgd | MMomentum (scale : bool) | MNesterov (scale : bool).
(** The stepper whose momentum in update k is [mu k] *)
Definition stepper_of (me : method) (mu : nat -> R) : stepper :=
  match me with MSgd => Sgd | MMomentum scale => Momentum mu scale | MNesterov scale => Nesterov mu scale end.

Section Run.
  Variables (fmax : R) (layers : list linst) (hubs : list hub) (lay : slices).
  (** The state of everything else: iterators, random generators, attributes of hooks *)
  Variable X : Type.
  (** The network (parameters, modifiers) with the stepper's velocity, the attributes learning_rate and
      momentum of the stepper, everything else *)
  Record nworld := mkNW { w_net : tstate; w_attr : string -> R; w_rest : X }.

  (** self.stepper.start(net) (trainer.py:80, steppers.py:57-59, 93-95): the velocity is 0. *)
  Definition start_stepper (w : nworld) : option nworld :=
    let x := w_net w in
    Some (mkNW (mkT (stepper_start (s_params (t_step x))) (t_weight x) (t_grad x)) (w_attr w) (w_rest w)).

  (** trainer.py:99-101: the stepper is run; gather_losses_and_scores (scorers.py:36-38) reads the batch size and
      the total loss from the memory it leaves (losses of single Loss layers and train_scorers are left out);
      net.apply_weight_modifiers (which [update] includes). *)
  Definition run_update (me : method) (w : nworld) (b : batch) : option (nworld * (R * R)) :=
    let st := stepper_of me (fun _ => w_attr w "momentum") in
    let rate := fun _ : nat => w_attr w "learning_rate" in
    let x := w_net w in
    let m := snd (fst (run_stepper fmax layers hubs lay st rate 0 b (t_grad x) (t_step x))) in
    Some (mkNW (update fmax layers hubs lay st rate 0 b x) (w_attr w) (w_rest w),
          (INR (b_size b), net_loss layers hubs lay (b_env b) (b_time b) (b_size b) m)).
  (** scorers.py:56-59, 107-110 (the AssertionError for an epoch without batches is left out) *)
  Definition aggregate_losses (w : nworld) (scores : list (R * R)) : lval R :=
    VDict [("total_loss", VLeaf (ScorersModel.weighted_average scores))].

  (** Trainer.train (trainer.py:67-110) *)
  Definition train_network (me : method) (new_iterator : nworld -> nworld * list batch)
    : list (hook R nworld) -> nat -> state R nworld -> option (state R nworld * bool * list (TrainerModel.event R)) :=
    TrainerModel.train R nworld batch (R * R) new_iterator (run_update me) aggregate_losses start_stepper.

  (** hooks.py:353-373 MonitorLoss with tools.py:52-82 evaluate: the batches of its iterator are
      evaluated one after the other. *)
  Definition monitor_loss (name scale : string) (interval : nat) (iterate : X -> X * list batch) : hook R nworld :=
    mkHook R nworld name scale interval (fun w => Some w)
      (fun _ _ w _ =>
         let '(r, bs) := iterate (w_rest w) in
         let '(x, scores) := fold_left (fun p b => (EvalNetModel.evaluate layers hubs lay b (fst p), snd p ++ [(INR (b_size b), eval_loss layers hubs lay b (s_params (t_step (fst p))))]))
                               bs (w_net w, []) in
         Some (mkNW x (w_attr w) r, aggregate_losses w scores, false)).

  (** hooks.py:864-883 ModifyStepperAttribute; [schedule epoch_nr update_nr timescale interval] (schedules.py)
      is [None] for an exception.  The assertion that the stepper has the attribute is left out. *)
  Definition modify_attribute (name attr scale : string) (interval : nat) (schedule : nat -> nat -> string -> nat -> option R) : hook R nworld :=
    mkHook R nworld name scale interval (fun w => Some w)
      (fun e u w _ =>
         match schedule e u scale interval with
         | None => None
         | Some v => Some (mkNW (w_net w) (fun a => if String.eqb a attr then v else w_attr w a) (w_rest w), VNone, false)
         end).
End Run.
Arguments mkNW {X}.
Arguments w_net {X}.
Arguments w_attr {X}.
Arguments w_rest {X}.
