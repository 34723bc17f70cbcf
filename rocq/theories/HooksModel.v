(** Model of hooks in brainstorm/hooks.py: SaveBestNetwork, EarlyStopper,
    StopAfterThresholdReached, StopOnNan, the layer monitors; and of
    Network.get_loss_values with the Loss layer. *)
From Coq Require Import String List Arith ZArith QArith Bool Reals.
From Verif Require Import PyBase UtilsModel TrainerModel.
Import ListNotations.
Open Scope string_scope.
Open Scope list_scope.
Open Scope nat_scope.

(** Floating point values as far as comparisons are concerned: every finite
    float is a rational number.  *)
Inductive fl := NaN | NInf | PInf | Fin (q : Q).

(** a < b (IEEE: false if one is NaN) *)
Definition flt (a b : fl) : bool :=
  match a, b with
  | NaN, _ | _, NaN => false
  | NInf, NInf => false
  | NInf, _ => true
  | _, NInf => false
  | PInf, _ => false
  | _, PInf => true
  | Fin p, Fin q => negb (Qle_bool q p)
  end.
(** a <= b *)
Definition fle (a b : fl) : bool :=
  match a, b with
  | NaN, _ | _, NaN => false
  | _, _ => negb (flt b a)
  end.
Definition is_nan (a : fl) : bool := match a with NaN => true | _ => false end.
(** np.isfinite *)
Definition is_finite (a : fl) : bool := match a with Fin _ => true | _ => false end.

(** Result of calling a hook. *)
Inductive outcome :=
| Continue      (* returns None *)
| Stop          (* StopIteration *)
| Fail.         (* any other exception *)

(** get_by_path(logs, log_name) when it is a list. *)
Definition get_log (l : logs fl) (log_name : string) : option (list fl) :=
  match get_by_path (DDict l) log_name with
  | Some (DLeaf xs) => Some xs
  | _ => None
  end.

(** np.argmin / np.argmax of a list ([better x y]: x replaces y): position of the
    first best value, where a NaN counts as best and ends the search. *)
Fixpoint argbest_loop (better : fl -> fl -> bool) (l : list fl) (i : nat) (best : fl) (best_i : nat) : nat :=
  match l with
  | [] => best_i
  | x :: r => if is_nan x then i
              else if better x best then argbest_loop better r (S i) x i
              else argbest_loop better r (S i) best best_i
  end.
(** ValueError for an empty list *)
Definition argbest (better : fl -> fl -> bool) (l : list fl) : option nat :=
  match l with
  | [] => None
  | x :: r => if is_nan x then Some 0 else Some (argbest_loop better r 1 x 0)
  end.
Inductive criterion := Min | Max.
Definition better (c : criterion) (x y : fl) : bool := match c with Min => flt x y | Max => flt y x end.

(** hooks.py:494-507 EarlyStopper.__call__.  A log_name that denotes a
    dictionary is treated like a missing one. *)
Definition early_stopper (log_name : string) (patience : nat) (c : criterion) (epoch_nr : nat) (l : logs fl) : outcome :=
  match get_log l log_name with
  | None => if epoch_nr =? 0 then Continue else Fail
  | Some e =>
      match argbest (better c) e with
      | None => Fail
      | Some best_idx => if best_idx + patience <? length e then Stop else Continue
      end
  end.

(** hooks.py:57-162 SaveBestNetwork: its state; [P] are parameters (cached, or
    the network saved in a file; [sb_saved = None] before the first save). *)
Record best_state (P : Type) := mkBest { sb_best : fl; sb_t : option nat; sb_saved : option P }.
Arguments mkBest {P}. Arguments sb_best {P}. Arguments sb_t {P}. Arguments sb_saved {P}.
(** hooks.py:113-125 __init__ *)
Definition save_best_init {P} (c : criterion) : best_state P :=
  mkBest (match c with Min => PInf | Max => NInf end) None None.
(** hooks.py:127-158 __call__; [t] is epoch_nr or update_nr depending on the
    timescale; [None] is an exception. *)
Definition save_best {P} (log_name : string) (c : criterion) (epoch_nr t : nat) (params : P) (l : logs fl) (s : best_state P)
  : option (best_state P) :=
  match get_log l log_name with
  | None => if epoch_nr =? 0 then Some s else None
  | Some e =>
      match rev e with
      | [] => None            (* e[-1] of an empty list *)
      | last :: _ =>
          if better c last (sb_best s) then Some (mkBest last (Some t) (Some params)) else Some s
      end
  end.

(** Python's max(e) / min(e): the first value is replaced by later better ones. *)
Definition py_best (c : criterion) (e : list fl) : option fl :=
  match e with
  | [] => None
  | x :: r => Some (fold_left (fun m y => if better c y m then y else m) r x)
  end.
(** hooks.py:601-612 StopAfterThresholdReached.__call__ *)
Definition threshold_stopper (log_name : string) (threshold : fl) (c : criterion) (l : logs fl) : outcome :=
  match get_log l log_name with
  | None => Fail
  | Some e =>
      match py_best c e with
      | None => Fail
      | Some m =>
          if match c with Max => fle threshold m | Min => fle m threshold end then Stop else Continue
      end
  end.

(** hooks.py:651-674 StopOnNan.__call__; [params] are the values of the
    parameter buffer. *)
Fixpoint check_logs (names : list string) (l : logs fl) : outcome :=
  match names with
  | [] => Continue
  | n :: r => match get_log l n with
              | None => Fail
              | Some e => if forallb is_finite e then check_logs r l else Stop
              end
  end.
Definition stop_on_nan (logs_to_check : list string) (check_parameters check_training_loss : bool)
  (params : list fl) (l : logs fl) : outcome :=
  match check_logs logs_to_check l with
  | Continue =>
      if check_parameters && negb (forallb is_finite params) then Stop
      else if check_training_loss && dmem "rolling_training" l then
        match dget "rolling_training" l with
        | Some (DDict rtrain) =>
            match (if dmem "total_loss" rtrain then dget "total_loss" rtrain else dget "Loss" rtrain) with
            | Some (DLeaf loss) => if forallb is_finite loss then Continue else Stop
            | _ => Fail
            end
        | _ => Fail
        end
      else Continue
  | o => o
  end.

(** * Monitors *)
(** An array: shape and its rows (for an array with at least two dimensions the
    second axis; other axes are not needed), over the real numbers. *)
Record array := mkArray { ar_ndim : nat; ar_values : list R; ar_norms : list R }.
(** [ar_values]: all entries; [ar_norms]: the entries of
    np.sqrt(np.sum(v ** 2, axis=1)) (only if ar_ndim > 1). *)

Fixpoint rmin (x : R) (l : list R) : R := match l with [] => x | y :: r => rmin (Rmin x y) r end.
Fixpoint rmax (x : R) (l : list R) : R := match l with [] => x | y :: r => rmax (Rmax x y) r end.
Definition rsum (l : list R) : R := fold_right Rplus 0%R l.
Definition rmean (l : list R) : R := (rsum l / INR (length l))%R.

(** log[key]['min'] = v.min(); 'avg': v.mean(); 'max': v.max() with the given
    keys; [None] is the ValueError for an array without entries. *)
Definition statistics (kmin kavg kmax : string) (l : list R) : option (list (string * lval R)) :=
  match l with
  | [] => None
  | x :: r => Some [(kmin, VLeaf (rmin x r)); (kavg, VLeaf (rmean l)); (kmax, VLeaf (rmax x r))]
  end.
Definition stats := statistics "min" "avg" "max".

(** The views of a layer: category -> name -> array. *)
Definition layer_views := dict (dict array).
Definition category (c : string) (v : layer_views) : option (dict array) := dget c v.

(** The loops "for key, v in ...items()": log[key] = statistics *)
Fixpoint monitor_loop (f : array -> option (lval R)) (items : dict array) (log : dict (lval R)) : option (dict (lval R)) :=
  match items with
  | [] => Some log
  | (key, v) :: r => match f v with None => None | Some x => monitor_loop f r (dset key x log) end
  end.
Definition stats_entry (v : array) : option (lval R) := option_map VDict (stats (ar_values v)).

(** hooks.py:270-278 MonitorLayerGradients.__call__ *)
Definition monitor_gradients (layer : layer_views) : option (lval R) :=
  match category "gradients" layer with
  | None => None
  | Some items => option_map VDict (monitor_loop stats_entry items [])
  end.
(** hooks.py:342-348, with the norms of arrays with more than one dimension *)
Definition parameter_entry (v : array) : option (lval R) :=
  match stats (ar_values v) with
  | None => None
  | Some s =>
      if 1 <? ar_ndim v then
        match statistics "min_L2_norm" "avg_L2_norm" "max_L2_norm" (ar_norms v) with
        | None => None
        | Some n => Some (VDict (s ++ n))
        end
      else Some (VDict s)
  end.
(** hooks.py:336-350 MonitorLayerParameters.__call__ *)
Definition monitor_parameters (layer : layer_views) : option (lval R) :=
  match category "parameters" layer with
  | None => None
  | Some items => option_map VDict (monitor_loop parameter_entry items [])
  end.
(** hooks.py:298-316 MonitorLayerInOuts.__call__ *)
Definition monitor_in_outs (layer : layer_views) : option (lval R) :=
  match category "inputs" layer, category "outputs" layer with
  | Some ins, Some outs =>
      match monitor_loop stats_entry ins [], monitor_loop stats_entry outs [] with
      | Some i, Some o => Some (VDict [("inputs", VDict i); ("outputs", VDict o)])
      | _, _ => None
      end
  | _, _ => None
  end.
(** hooks.py:225-250 MonitorLayerDeltas.__call__.  In the loop over the input
    deltas (242-248) [key_log] is the new, empty dictionary of the key, and
    key_log[key]['min'] looks up the key in it: KeyError. *)
Fixpoint input_deltas_loop (items : dict array) : option (dict (lval R)) :=
  match items with
  | [] => Some []
  | (key, v) :: r =>
      let key_log : dict (dict (lval R)) := [] in
      match dget key key_log with
      | None => None                    (* KeyError *)
      | Some _ => input_deltas_loop r
      end
  end.
Definition monitor_deltas (layer : layer_views) : option (lval R) :=
  match category "internals" layer, category "output_deltas" layer, category "input_deltas" layer with
  | Some ints, Some outs, Some ins =>
      match monitor_loop stats_entry ints [] with
      | None => None
      | Some log =>
          match monitor_loop stats_entry outs [] with
          | None => None
          | Some o =>
              match input_deltas_loop ins with
              | None => None
              | Some i => Some (VDict (dset "input_deltas" (VDict i) (dset "output_deltas" (VDict o) log)))
              end
          end
      end
  | _, _, _ => None
  end.

(** * Losses *)
(** A Loss layer: name, importance, the batch size the input has (None if the
    input does not scale with the batch size) and the values of its input
    buffer. *)
Record loss_layer := mkLoss { lo_name : string; lo_importance : R; lo_batch : option nat; lo_input : list R }.
(** loss_layer.py:41-52 forward_pass *)
Definition loss_value (l : loss_layer) : R :=
  let batch_size := match lo_batch l with None => 1%R | Some b => INR b end in
  (lo_importance l / batch_size * rsum (lo_input l))%R.
(** network.py:447-475 get_loss_values *)
Definition get_loss_values (ls : list loss_layer) : dict R :=
  match ls with
  | [l] => [("total_loss", loss_value l)]
  | _ =>
      let '(losses, loss) := fold_left (fun '(losses, loss) l => (dset (lo_name l) (loss_value l) losses, (loss + loss_value l)%R)) ls ([], 0%R) in
      dset "total_loss" loss losses
  end.
