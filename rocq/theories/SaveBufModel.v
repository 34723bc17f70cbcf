(** Model of extract_and_save of brainstorm/tools.py: the buffers of a network,
    written batch by batch to a file. *)
From Coq Require Import String List Arith Bool.
From Verif Require Import PyBase IteratorsModel ToolsModel.
Import ListNotations.
Open Scope string_scope.
Open Scope list_scope.
Open Scope nat_scope.

Section Save.
  Variable A : Type.
  Variable zero : A.

  (** The list [ds] of tools.py:156: the datasets of the file in the order of their
      creation, with their names.  The axes behind the second are inside of [A]. *)
  Definition datasets := list (string * array A).

  (** h5py's Dataset.resize(size, axis=1): cut, or filled up with zeros
      (tools.py:175) *)
  Definition resize (size : nat) (w : array A) : array A :=
    mkArray (a_T w) size (fun t j => if j <? a_N w then a_at w t j else zero).

  (** tools.py:165-173, the loop over the buffer names of the first batch ([first]
      is [num == 0]).  create_dataset refuses a name that is in the file, and
      chunks without elements. *)
  Fixpoint save_first (b : buffers A) (names : list string) (first : bool) (ds : datasets) (nr_items : nat) : option (datasets * nat) :=
    match names with
    | [] => Some (ds, nr_items)
    | name :: r =>
        match b name with
        | None => None
        | Some data =>
            let nr := if first then nr_items + a_N data else nr_items in
            if smem name (map fst ds) then None
            else if (a_T data =? 0) || (a_N data =? 0) then None
            else save_first b r false (ds ++ [(name, data)]) nr
        end
    end.

  (** tools.py:165-168, 174-176, the same loop for a later batch: ds[num] is resized
      and the data written behind its previous end.  Simplification as in
      [extract_names]: a slice with negative start is an error. *)
  Fixpoint save_next (b : buffers A) (names : list string) (first : bool) (ds : datasets) (nr_items : nat) : option (datasets * nat) :=
    match names, ds with
    | [], _ => Some (ds, nr_items)
    | _ :: _, [] => None
    | name :: r, (key, w) :: ds' =>
        match b name with
        | None => None
        | Some data =>
            let nr := if first then nr_items + a_N data else nr_items in
            if nr <? a_N data then None
            else
            match assign_columns A (resize nr w) (nr - a_N data) nr data with
            | None => None
            | Some w' =>
                match save_next b r false ds' nr with
                | None => None
                | Some (ds'', nr') => Some ((key, w') :: ds'', nr')
                end
            end
        end
    end.

  (** tools.py:162-176, the loop over the batches *)
  Fixpoint save_loop (names : list string) (batches : list (buffers A)) (ds : datasets) (nr_items : nat) : option datasets :=
    match batches with
    | [] => Some ds
    | b :: r =>
        let first_pass := negb (0 <? length ds) in
        match (if first_pass then save_first else save_next) b names true ds nr_items with
        | None => None
        | Some (ds', nr) => save_loop names r ds' nr
        end
    end.

  (** tools.py:124-176: the datasets of the file; [None] is an exception. *)
  Definition extract_and_save (names : list string) (batches : list (buffers A)) : option datasets :=
    save_loop names batches [] 0.
End Save.
