(** Model of brainstorm/training/trainer.py and brainstorm/training/utils.py. *)
From Coq Require Import String List Arith ZArith Bool.
From Verif Require Import PyBase UtilsModel.
Import ListNotations.
Open Scope string_scope.
Open Scope list_scope.
Open Scope nat_scope.

(** What a hook returns (or puts into StopIteration): None, a value, or a
    (nested) dictionary.  The keys of a dictionary are distinct. *)
Inductive lval (V : Type) : Type :=
| VNone : lval V
| VLeaf : V -> lval V
| VDict : list (string * lval V) -> lval V.
Arguments VNone {V}.
Arguments VLeaf {V} _.
Arguments VDict {V} _.

(** Trainer.logs / Trainer.results: nested dictionaries with lists of values
    as leaves. *)
Definition logs (V : Type) := dict (dtree (list V)).

Definition is_none {V} (v : lval V) : bool := match v with VNone => true | _ => false end.

(** trainer.py:171-191 _add_log (printing is not modelled).  [None] is an
    exception: appending to a dictionary (AttributeError) or using a list as a
    dictionary (TypeError). *)
Fixpoint add_log {V} (name : string) (v : lval V) (l : logs V) : option (logs V) :=
  match v with
  | VNone => Some l
  | VLeaf x =>
      match dget name l with
      | None => Some (dset name (DLeaf [x]) l)
      | Some (DLeaf xs) => Some (dset name (DLeaf (xs ++ [x])) l)
      | Some (DDict _) => None
      end
  | VDict items =>
      let go := fix go (items : list (string * lval V)) (sub : logs V) : option (logs V) :=
        match items with
        | [] => Some sub
        | (k, w) :: r => match add_log k w sub with Some sub' => go r sub' | None => None end
        end in
      match dget name l with
      | Some (DLeaf xs) => if forallb (fun kv => is_none (snd kv)) items then Some l else None
      | Some (DDict sub) => match go items sub with Some sub' => Some (dset name (DDict sub') l) | None => None end
      | None => match go items [] with Some sub' => Some (dset name (DDict sub') l) | None => None end
      end
  end.

Section Trainer.
  (** The values that are logged, the state of everything outside the trainer
      (network, stepper, attributes of hooks, random generators, files), the
      batches and the scores gathered for a batch. *)
  Variables V W Batch Score : Type.

  (** A hook: name (key of the trainer's dictionary), timescale, interval, the
      start method and the call.  The call gets epoch_nr, update_nr, the world
      and the logs (trainer.py:159-162); [None] is an exception other than
      StopIteration; the boolean tells whether StopIteration was raised and the
      value is the return value or the StopIteration's value
      (trainer.py:163-164).  Hooks do not modify the logs. *)
  Record hook := mkHook {
    h_name : string;
    h_scale : string;
    h_interval : nat;
    h_start : W -> option W;
    h_call : nat -> nat -> W -> logs V -> option (W * lval V * bool) }.

  (** training_data_iter(handler=...) (trainer.py:96): the batches of one epoch.
      Simplification: the batches are produced at the beginning of the epoch. *)
  Variable new_iterator : W -> W * list Batch.
  (** One update without the hooks (utils.py:6-9, trainer.py:97-101):
      provide_external_data, stepper.run, gather_losses_and_scores,
      apply_weight_modifiers.  [None] is an exception. *)
  Variable train_step : W -> Batch -> option (W * Score).
  (** aggregate_losses_and_scores (trainer.py:106-108). *)
  Variable aggregate : W -> list Score -> lval V.

  (** The attributes of the trainer (trainer.py:37-42) and the world. *)
  Record state := mkState { t_epoch : nat; t_update : nat; t_logs : logs V; t_results : logs V; t_world : W }.

  (** Observable events: a hook call at a timescale and count with its result,
      an update, the logging of the epoch's training scores. *)
  Inductive event :=
  | Called (scale : string) (n : nat) (name : string) (v : lval V) (stop : bool)
  | Updated (n : nat)
  | Logged (e : nat) (v : lval V).

  (** trainer.py:128-138 _start_hooks *)
  Fixpoint start_hooks (hooks : list hook) (w : W) : option W :=
    match hooks with
    | [] => Some w
    | h :: r => match h_start h w with Some w' => start_hooks r w' | None => None end
    end.

  (** trainer.py:142-143 *)
  Definition count (scale : string) (s : state) : nat :=
    if String.eqb scale "epoch" then t_epoch s else t_update s.

  (** trainer.py:140-154 _emit_hooks, with _call_hook (156-169).  [res] tells
      whether the results (evaluate) or the logs (train) are extended. *)
  Fixpoint emit_hooks (res : bool) (hooks : list hook) (scale : string) (s : state)
    : option (state * bool * list event) :=
    match hooks with
    | [] => Some (s, false, [])
    | h :: r =>
        if negb (String.eqb (h_scale h) scale) then emit_hooks res r scale s
        else if h_interval h =? 0 then None    (* ZeroDivisionError *)
        else if negb (count scale s mod h_interval h =? 0) then emit_hooks res r scale s
        else
          match h_call h (t_epoch s) (t_update s) (t_world s) (t_logs s) with
          | None => None
          | Some (w, v, stop) =>
              let ls := if res then t_results s else t_logs s in
              match add_log (h_name h) v ls with
              | None => None
              | Some ls' =>
                  let s' := if res then mkState (t_epoch s) (t_update s) (t_logs s) ls' w
                            else mkState (t_epoch s) (t_update s) ls' (t_results s) w in
                  match emit_hooks res r scale s' with
                  | None => None
                  | Some (s2, stop2, ev) =>
                      Some (s2, stop || stop2, Called scale (count scale s) (h_name h) v stop :: ev)
                  end
              end
          end
    end.

  (** trainer.py:97-104, the loop over the batches of an epoch. *)
  Fixpoint run_batches (hooks : list hook) (bs : list Batch) (scores : list Score) (s : state)
    : option (state * bool * list Score * list event) :=
    match bs with
    | [] => Some (s, false, scores, [])
    | b :: r =>
        match train_step (t_world s) b with
        | None => None
        | Some (w, sc) =>
            let s1 := mkState (t_epoch s) (S (t_update s)) (t_logs s) (t_results s) w in
            let scores' := scores ++ [sc] in
            match emit_hooks false hooks "update" s1 with
            | None => None
            | Some (s2, true, ev) => Some (s2, true, scores', Updated (t_update s1) :: ev)
            | Some (s2, false, ev) =>
                match run_batches hooks r scores' s2 with
                | None => None
                | Some (s3, stop, scores3, ev') => Some (s3, stop, scores3, Updated (t_update s1) :: ev ++ ev')
                end
            end
        end
    end.

  (** trainer.py:88-110, one run of the body of the while loop. *)
  Definition run_epoch (hooks : list hook) (s : state) : option (state * bool * list event) :=
    let (w, bs) := new_iterator (t_world s) in
    let s0 := mkState (S (t_epoch s)) (t_update s) (t_logs s) (t_results s) w in
    match run_batches hooks bs [] s0 with
    | None => None
    | Some (s1, stop1, scores, ev1) =>
        let v := aggregate (t_world s1) scores in
        match add_log "rolling_training" v (t_logs s1) with
        | None => None
        | Some ls =>
            let s2 := mkState (t_epoch s1) (t_update s1) ls (t_results s1) (t_world s1) in
            match emit_hooks false hooks "epoch" s2 with
            | None => None
            | Some (s3, stop2, ev2) => Some (s3, stop1 || stop2, ev1 ++ Logged (t_epoch s1) v :: ev2)
            end
        end
    end.

  (** trainer.py:86-110, the while loop; at most [fuel] epochs are run.  The
      boolean tells whether the loop has ended. *)
  Fixpoint run_epochs (hooks : list hook) (fuel : nat) (s : state) : option (state * bool * list event) :=
    match fuel with
    | 0 => Some (s, false, [])
    | S f =>
        match run_epoch hooks s with
        | None => None
        | Some (s1, true, ev) => Some (s1, true, ev)
        | Some (s1, false, ev) =>
            match run_epochs hooks f s1 with
            | None => None
            | Some (s2, fin, ev') => Some (s2, fin, ev ++ ev')
            end
        end
    end.

  (** trainer.py:67-110 train (the check of the data names, lines 74-79, and
      stepper.start are part of [start]). *)
  Definition train (start : W -> option W) (hooks : list hook) (fuel : nat) (s : state)
    : option (state * bool * list event) :=
    match start (t_world s) with
    | None => None
    | Some w0 =>
        match start_hooks hooks w0 with
        | None => None
        | Some w1 =>
            let s1 := mkState (t_epoch s) (t_update s) (t_logs s) (t_results s) w1 in
            match emit_hooks false hooks "update" s1 with
            | None => None
            | Some (s2, true, ev) => Some (s2, true, ev)
            | Some (s2, false, ev) =>
                match emit_hooks false hooks "epoch" s2 with
                | None => None
                | Some (s3, true, ev') => Some (s3, true, ev ++ ev')
                | Some (s3, false, ev') =>
                    match run_epochs hooks fuel s3 with
                    | None => None
                    | Some (s4, fin, ev'') => Some (s4, fin, ev ++ ev' ++ ev'')
                    end
                end
            end
        end
    end.

  (** trainer.py:112-116 evaluate *)
  Definition evaluate (hooks : list hook) (s : state) : option (state * list event) :=
    match start_hooks hooks (t_world s) with
    | None => None
    | Some w1 =>
        let s1 := mkState (t_epoch s) (t_update s) (t_logs s) (t_results s) w1 in
        match emit_hooks true hooks "epoch" s1 with
        | None => None
        | Some (s2, _, ev) =>
            match emit_hooks true hooks "update" s2 with
            | None => None
            | Some (s3, _, ev') => Some (s3, ev ++ ev')
            end
        end
    end.

  (** hooks.py StopAfterEpoch.__call__ (537-541): the world is
      not changed and nothing is returned. *)
  Definition stop_after_epoch (name : string) (max_epochs : nat) (scale : string) (interval : nat) : hook :=
    mkHook name scale interval (fun w => Some w)
      (fun epoch_nr _ w _ => Some (w, VNone, max_epochs <=? epoch_nr)).
End Trainer.

Arguments Called {V} _ _ _ _ _.
Arguments Updated {V} _.
Arguments Logged {V} _ _.

(** Priorities of hooks.  Hook objects are numbers; their priority attribute is
    part of a store shared by all trainers. *)
Section AddHook.
  Variable hook_name : nat -> string.

  Record world := mkWorld { w_priority : nat -> Z; w_hooks : nat -> list nat }.

  (** max(l) of a non-empty list *)
  Definition zmax (l : list Z) : Z := match l with [] => 0%Z | x :: r => fold_left Z.max r x end.

  (** trainer.py:45-65 add_hook of trainer [t]; [None] is the ValueError. *)
  Definition add_hook (t h : nat) (w : world) : option world :=
    let hs := w_hooks w t in
    if smem (hook_name h) (map hook_name hs) then None
    else
      let hs' := hs ++ [h] in
      let p := (zmax (map (w_priority w) hs') + 1)%Z in
      Some (mkWorld (fun x => if x =? h then p else w_priority w x)
                    (fun x => if x =? t then hs' else w_hooks w x)).

  (** A sequence of calls, where a ValueError leaves everything as it was. *)
  Fixpoint add_hooks (ops : list (nat * nat)) (w : world) : world :=
    match ops with
    | [] => w
    | (t, h) :: r => add_hooks r (match add_hook t h w with Some w' => w' | None => w end)
    end.

  (** The part of the description of trainer [t] used here: names and
      priorities (describable.py describes all attributes). *)
  Definition describe_hooks (w : world) (t : nat) : list (string * Z) :=
    map (fun h => (hook_name h, w_priority w h)) (w_hooks w t).
End AddHook.

(** trainer.py:118-126 __init_from_description__: the names in their new order. *)
Definition init_from_description (hooks : list (string * Z)) : list string :=
  map fst (isort (fun a b => (snd a <=? snd b)%Z) hooks).
