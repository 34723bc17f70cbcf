(** Evaluation of a network created from an architecture, on its memory: forward passes with
    training_pass=False, as run by the monitoring hooks, by scorers and by Trainer.evaluate. *)
From Coq Require Import String List Reals Arith Bool.
From Verif Require Import NumBase NumpyModel LayersModel NetworkModel NetLayersModel MemoryPassModel HubModel LayoutModel BuffersModel.
From Verif Require Import UtilsModel ShapesModel SetupModel NetLayoutProps CellsProofs NetMemoryModel SchedulesModel TrainNetModel ModifiersModel ModNetModel.
Import ListNotations.
Open Scope string_scope.
Open Scope list_scope.
Open Scope nat_scope.

(** The outputs for which layers take no deltas (takes_no_output_deltas_from) *)
Definition pred_names (c : cls) : list string := match c with CSquaredError | CSigmoidCE | CSoftmaxCE => ["predictions"] | _ => [] end.

Section Eval.
  Variables (fmax : R) (layers : list linst) (hubs : list hub) (lay : slices).
  (** layer.forward_pass(buffers, training_pass=False), outputs other than predictions: Dropout copies its
      inputs (dropout_layer.py:46-47), BatchNorm uses its moving averages (batch_normalization_layer.py:54-105),
      the other layers do not look at training_pass. *)
  Definition eval_main (e : env) (T B : nat) (l : linst) (m : vec) : vec :=
    let cells := CellsProofs.cells layers hubs lay (S T) B l in
    let par x := read (cells "parameters" x) m in
    let inp := read (cells "inputs" "default") m in
    match li_cls l with
    | CDropout => write (cells "outputs" "default") inp m
    | CBatchNorm =>
        let x := nf (li_in l) "default" in
        let st := bn_forward false (S T * B) (number (cf_scalar (li_cfg l))) (number (cf_epsilon (li_cfg l)))
                    (par "gamma") (par "beta") (par "mu") (par "sigma") none (mat_of x inp) in
        write (cells "outputs" "default") (vec_of x (bn_out st)) m
    | _ => run_forward (mlayer_of layers hubs lay e T B l) m
    end.
  (** The predictions (squared_error_layer.py:57-72, sigmoid_ce_layer.py:59-82, softmax_ce_layer.py:65-90) *)
  Definition predicted (T B : nat) (l : linst) (m : vec) : vec :=
    let cells := CellsProofs.cells layers hubs lay (S T) B l in
    let x := nf (li_in l) "default" in
    let inp := mat_of x (read (cells "inputs" "default") m) in
    let tg := read (cells "inputs" "targets") m in
    match li_cls l with
    | CSquaredError => vec_of x (fst (sqerr_forward inp (mat_of x tg)))
    | CSigmoidCE => vec_of x (fst (sigmoid_ce_forward inp (mat_of x tg)))
    | CSoftmaxCE => vec_of x (fst (softmax_ce_forward (x - 1) inp (fun i => class_of (x - 1) (tg i))))
    | _ => none
    end.
  Definition run_eval (e : env) (T B : nat) (l : linst) (m : vec) : vec :=
    write (cells_of layers hubs lay T B l "outputs" (pred_names (li_cls l))) (predicted T B l m) (eval_main e T B l m).
  (** network.py:429-430 with training_pass=False *)
  Definition eval_pass (e : env) (T B : nat) (ls : list linst) (m : vec) : vec := fold_left (fun m l => run_eval e T B l m) ls m.
  (** tools.py:76-77, as used by the hooks MonitorLoss and MonitorScores, for one batch:
      net.provide_external_data(data) (training/utils.py:6-9);
      net.forward_pass() *)
  Definition evaluation (b : batch) (params : vec) : vec :=
    eval_pass (b_env b) (b_time b) (b_size b) (tl layers) (prepared layers hubs lay b params).
  (** net.get_loss_values()['total_loss'] afterwards *)
  Definition eval_loss (b : batch) (params : vec) : R := net_loss layers hubs lay (b_env b) (b_time b) (b_size b) (evaluation b params).

  (** What happens to a network in Trainer.train (trainer.py:80-110): updates, and evaluations by hooks *)
  Inductive event := Update (b : batch) | Evaluate (b : batch).
  Definition evaluate (b : batch) (x : tstate) : tstate :=
    mkT (mkS (read (param_cells layers hubs lay b) (evaluation b (s_params (t_step x)))) (s_buf (t_step x))) (t_weight x) (t_grad x).
  (** [k] updates have been done before *)
  Fixpoint monitored (st : stepper) (rate : nat -> R) (events : list event) (k : nat) (x : tstate) : tstate :=
    match events with
    | [] => x
    | Update b :: r => monitored st rate r (S k) (update fmax layers hubs lay st rate k b x)
    | Evaluate b :: r => monitored st rate r k (evaluate b x)
    end.
End Eval.
(** The batches of the updates *)
Definition update_batches (events : list event) : list batch := flat_map (fun x => match x with Update b => [b] | Evaluate _ => [] end) events.
