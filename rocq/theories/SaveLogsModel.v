(** Model of the hook SaveLogs of brainstorm/hooks.py. *)
From Coq Require Import String List Arith Bool.
From Verif Require Import PyBase UtilsModel TrainerModel.
Import ListNotations.
Open Scope string_scope.
Open Scope list_scope.
Open Scope nat_scope.

Section SaveLogs.
  (** Numbers, and the logged values: numbers, or texts (the value of a StopIteration
      with a message, trainer.py:163-164). *)
  Variable A : Type.
  Inductive entry := Number (a : A) | Text (s : string).

  (** An HDF5 file: groups (dictionaries) and datasets of numbers. *)
  Definition file := dict (dtree (list A)).

  (** np.array(log) as data of a dataset (hooks.py:186): an array with a text has a
      unicode dtype, which h5py refuses (TypeError, [None]). *)
  Fixpoint numbers (xs : list entry) : option (list A) :=
    match xs with
    | [] => Some []
    | Number a :: r => option_map (cons a) (numbers r)
    | Text _ :: _ => None
    end.

  (** hooks.py:182-186: what is created for one log, and whether this works. *)
  Fixpoint save_item (t : dtree (list entry)) : option (dtree (list A)) * bool :=
    match t with
    | DLeaf xs => match numbers xs with Some ns => (Some (DLeaf ns), true) | None => (None, false) end
    | DDict d =>
        let go := fix go (items : list (string * dtree (list entry))) : file * bool :=
          match items with
          | [] => ([], true)
          | (k, x) :: r =>
              match save_item x with
              | (Some y, true) => let (f, ok) := go r in ((k, y) :: f, ok)
              | (Some y, false) => ([(k, y)], false)
              | (None, _) => ([], false)
              end
          end in
        let (f, ok) := go d in (Some (DDict f), ok)
    end.
  (** hooks.py:179-186 _save_recursively: the group, and whether everything worked.
      Simplification: the names are plain (h5py takes '/' in a name as a path). *)
  Fixpoint save_recursively (l : logs entry) : file * bool :=
    match l with
    | [] => ([], true)
    | (k, x) :: r =>
        match save_item x with
        | (Some y, true) => let (f, ok) := save_recursively r in ((k, y) :: f, ok)
        | (Some y, false) => ([(k, y)], false)
        | (None, _) => ([], false)
        end
    end.

  Variable X : Type.
  (** The file of the hook, and everything else. *)
  Definition lworld := (file * X)%type.
  (** hooks.py:164-186, the hook as the trainer sees it; the file is written anew at
      each call (hooks.py:173-177), [None] is the TypeError. *)
  Definition save_logs_hook (name scale : string) (interval : nat) : hook entry lworld :=
    mkHook entry lworld name scale interval Some
      (fun _ _ w l => let (f, ok) := save_recursively l in if ok then Some ((f, snd w), VNone, false) else None).
End SaveLogs.
Arguments Number {A} _.
Arguments Text {A} _.
