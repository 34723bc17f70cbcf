(** The steppers on the memory of a network created from an architecture. *)
From Coq Require Import String List Reals.
From Verif Require Import NumBase NumpyModel LayersModel NetworkModel NetLayersModel MemoryPassModel.
From Verif Require Import HubModel LayoutModel BuffersModel BuffersProofs.
From Verif Require Import UtilsModel NamesModel ArchModel ShapesModel SetupModel NetLayoutProofs NetLayoutProps CellsProofs NetMemoryModel SchedulesModel.
Import ListNotations.
Open Scope string_scope.
Open Scope list_scope.
Open Scope nat_scope.

(** A batch: S b_time time steps, b_size sequences, the random masks and contexts of the pass,
    and the memory after Network.provide_external_data (network.py:381-403): the outputs of the
    Input layer hold the data, the parameters are still to be put in, everything else is arbitrary. *)
Record batch := mkBatch { b_time : nat; b_size : nat; b_env : env; b_mem : vec }.

Section Train.
  Variables (layers : list linst) (hubs : list hub) (lay : slices).
  (** The cells of net.buffer.parameters or net.buffer.gradients *)
  Definition whole (T B : nat) (kind : string) : list nat :=
    match array_view (map layout_layer layers) hubs lay T B kind with
    | Some v => map (address v) (all_indices (a_shape v))
    | None => []
    end.
  Definition param_cells (b : batch) : list nat := whole (S (b_time b)) (b_size b) "parameters".
  Definition grad_cells (b : batch) : list nat := whole (S (b_time b)) (b_size b) "gradients".
  (** Resizing keeps the parameters (C14): the memory when stepper.run is called (trainer.py:97-99). *)
  Definition prepared (b : batch) (params : vec) : vec := write (param_cells b) params (b_mem b).
  (** batch_normalization_layer.py:66-74, 81-96: a BatchNorm layer adjusts its moving averages in a training pass. *)
  Definition averages (T B : nat) (l : linst) (m : vec) : vec :=
    match li_cls l with
    | CBatchNorm =>
        let cells := CellsProofs.cells layers hubs lay (S T) B l in
        let par x := read (cells "parameters" x) m in
        let st := bn_forward true (S T * B) (number (cf_scalar (li_cfg l))) (number (cf_epsilon (li_cfg l)))
                    (par "gamma") (par "beta") (par "mu") (par "sigma") none (mat_of (nf (li_in l) "default") (read (cells "inputs" "default") m)) in
        write (cells "parameters" "sigma") (bn_sigma st) (write (cells "parameters" "mu") (bn_mu st) m)
    | _ => m
    end.
  (** network.py:429-430 with training_pass=True *)
  Definition train_pass (e : env) (T B : nat) (ls : list linst) (m : vec) : vec :=
    fold_left (fun m l => run_forward (mlayer_of layers hubs lay e T B l) (averages T B l m)) ls m.
  Definition forward (b : batch) : vec -> vec := train_pass (b_env b) (b_time b) (b_size b) (tl layers).
  Definition backward (b : batch) : vec -> vec := net_backward_pass layers hubs lay (b_env b) (b_time b) (b_size b).
  (** The total loss of the batch as a function of the parameters *)
  Definition batch_loss (b : batch) (params : vec) : R :=
    net_loss layers hubs lay (b_env b) (b_time b) (b_size b) (forward b (prepared b params)).

  (** steppers.py:61-69 SgdStepper.run *)
  Definition sgd_step (learning_rate : R) (b : batch) (s : sstate) : sstate :=
    let m := backward b (forward b (prepared b (s_params s))) in
    let update := mult_st (- learning_rate) (read (grad_cells b) m) in
    let m := write (param_cells b) (add_tt update (read (param_cells b) m)) m in
    mkS (read (param_cells b) m) update.
  (** steppers.py:97-114 MomentumStepper.run *)
  Definition momentum_step (learning_rate momentum : R) (scale_learning_rate : bool) (b : batch) (s : sstate) : sstate :=
    let rate := effective_rate learning_rate momentum scale_learning_rate in
    let m := backward b (forward b (prepared b (s_params s))) in
    let velocity := mult_st momentum (s_buf s) in
    let velocity := mult_add_st (- rate) (read (grad_cells b) m) velocity in
    let m := write (param_cells b) (add_tt velocity (read (param_cells b) m)) m in
    mkS (read (param_cells b) m) velocity.
  (** steppers.py:125-145 NesterovStepper.run *)
  Definition nesterov_step (learning_rate momentum : R) (scale_learning_rate : bool) (b : batch) (s : sstate) : sstate :=
    let rate := effective_rate learning_rate momentum scale_learning_rate in
    let velocity := mult_st momentum (s_buf s) in
    let m := prepared b (s_params s) in
    let m := write (param_cells b) (add_tt velocity (read (param_cells b) m)) m in
    let m := backward b (forward b m) in
    let velocity := mult_add_st (- rate) (read (grad_cells b) m) velocity in
    let m := write (param_cells b) (mult_add_st (- rate) (read (grad_cells b) m) (read (param_cells b) m)) m in
    mkS (read (param_cells b) m) velocity.
  (** trainer.py:97-99: one update per batch; [step k] uses the rates of update k (changed by schedules). *)
  Definition training (step : nat -> batch -> sstate -> sstate) (batches : nat -> batch) (n : nat) (params : vec) : sstate :=
    updates (fun k => step k (batches k)) n (stepper_start params).
End Train.

(** The steppers (steppers.py:38-145) with their momentum in each update *)
Inductive stepper := Sgd | Momentum (mu : nat -> R) (scale : bool) | Nesterov (mu : nat -> R) (scale : bool).
Definition step_of (st : stepper) (layers : list linst) (hubs : list hub) (lay : slices) (rate : nat -> R) (k : nat) : batch -> sstate -> sstate :=
  match st with
  | Sgd => sgd_step layers hubs lay (rate k)
  | Momentum mu scale => momentum_step layers hubs lay (rate k) (mu k) scale
  | Nesterov mu scale => nesterov_step layers hubs lay (rate k) (mu k) scale
  end.
(** The parameters at which the passes of update k are run (steppers.py:62-63, 98-99, 129-133) *)
Definition visited (st : stepper) (k : nat) (s : sstate) : vec :=
  match st with Nesterov mu _ => fun i => (s_params s i + mu k * s_buf s i)%R | _ => s_params s end.
