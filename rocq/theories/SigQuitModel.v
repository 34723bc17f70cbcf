(** Model of the hook StopOnSigQuit of brainstorm/hooks.py and of the signals it
    waits for. *)
From Coq Require Import String List Arith Bool.
From Verif Require Import PyBase UtilsModel TrainerModel.
Import ListNotations.
Open Scope string_scope.
Open Scope list_scope.
Open Scope nat_scope.

(** The part of the process the hook uses: the attribute [quit] of each
    StopOnSigQuit hook (by the hook's name; hooks.py:700), the hook whose
    receive_signal is the process' handler of SIGQUIT ([None]: the system's default
    action, the end of the process), and the number of the last update. *)
Record process := mkProcess { p_quit : string -> bool; p_handler : option string; p_clock : nat }.

(** [self.quit = v] *)
Definition set_quit (name : string) (v : bool) (p : process) : process :=
  mkProcess (fun k => if String.eqb k name then v else p_quit p k) (p_handler p) (p_clock p).

(** hooks.py:702-706 start *)
Definition sq_start (name : string) (p : process) : process :=
  let p' := set_quit name false p in mkProcess (p_quit p') (Some name) (p_clock p').

(** The arrival of SIGQUIT: hooks.py:708-710 receive_signal of the hook that is the
    handler (the message is not modelled); [None]: the process ends. *)
Definition receive (p : process) : option process :=
  match p_handler p with None => None | Some name => Some (set_quit name true p) end.

Section SigQuit.
  Variables V X Batch Score : Type.
  (** The text 'Received SIGQUIT signal.' as a log entry: the value of the
      StopIteration. *)
  Variable received : V.
  (** When signals arrive: [sig n] tells that (at least) one arrives during the n-th
      update.  Simplification: none arrive between an update and the end of the
      calls of the hooks after it. *)
  Variable sig : nat -> bool.

  Definition world := (process * X)%type.

  (** hooks.py:673-714, the hook as the trainer sees it; hooks.py:712-714 is the call *)
  Definition sigquit_hook (name scale : string) (interval : nat) : hook V world :=
    mkHook V world name scale interval
      (fun w => Some (sq_start name (fst w), snd w))
      (fun _ _ w _ => if p_quit (fst w) name then Some (w, VLeaf received, true) else Some (w, VNone, false)).

  (** The trainer's parts that do not know of signals, and an update during which
      signals may arrive. *)
  Definition sq_iterator (it : X -> X * list Batch) (w : world) : world * list Batch :=
    let (x, bs) := it (snd w) in ((fst w, x), bs).
  Definition sq_step (step : X -> Batch -> option (X * Score)) (w : world) (b : Batch) : option (world * Score) :=
    match step (snd w) b with
    | None => None
    | Some (x, sc) =>
        let p := mkProcess (p_quit (fst w)) (p_handler (fst w)) (S (p_clock (fst w))) in
        if sig (p_clock p) then match receive p with None => None | Some p' => Some ((p', x), sc) end
        else Some ((p, x), sc)
    end.
  Definition sq_aggregate (agg : X -> list Score -> lval V) (w : world) : list Score -> lval V := agg (snd w).
  Definition sq_begin (start : X -> option X) (w : world) : option world :=
    match start (snd w) with None => None | Some x => Some (fst w, x) end.

  (** Trainer.train (TrainerModel.v) in a process that receives these signals. *)
  Definition train_signals it step agg start : list (hook V world) -> nat -> state V world -> option (state V world * bool * list (event V)) :=
    train V world Batch Score (sq_iterator it) (sq_step step) (sq_aggregate agg) (sq_begin start).
End SigQuit.
