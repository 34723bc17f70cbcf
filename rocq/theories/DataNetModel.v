(** Providing the data of minibatches to a network created from an architecture. *)
From Coq Require Import String List Reals Arith.
From Verif Require Import NumBase NetworkModel HubModel LayoutModel UtilsModel ShapesModel SetupModel CellsProofs NetMemoryModel SchedulesModel TrainNetModel.
Import ListNotations.
Open Scope string_scope.
Open Scope list_scope.
Open Scope nat_scope.

Section Data.
  Variables (layers : list linst) (hubs : list hub) (lay : slices).
  (** network.py:394-403 provide_external_data, after resizing to [T] time steps and [B] sequences; [data name]
      are the elements of the array data[name] in row-major order.
      for name, buf in self.buffer.Input.outputs.items(): self.handler.set_from_numpy(buf, data[name]) *)
  Definition provide (T B : nat) (data : string -> vec) (m : vec) : vec :=
    match layers with
    | [] => m
    | input :: _ => fold_left (fun m name => write (cells layers hubs lay T B input "outputs" name) (data name) m) (map fst (li_out input)) m
    end.
  (** A data set: data[name][t, sequence, feature].  data_iterators.py:461-466 (Minibatches)
      takes v[:, ids] from each array (here without cutting of time steps). *)
  Definition dataset := string -> nat -> nat -> nat -> R.
  Definition selected (data : dataset) (ids : list nat) : string -> vec := fun name k =>
    match layers with
    | [] => 0%R
    | input :: _ =>
        let n := nf (li_out input) name in
        data name (k / n / length ids) (nth (k / n mod length ids) ids 0) (k mod n)
    end.
  (** The batch with the sequences [ids], each with [S T] time steps; [m] is the memory before. *)
  Definition minibatch (T : nat) (data : dataset) (ids : list nat) (e : env) (m : vec) : batch :=
    mkBatch T (length ids) e (provide (S T) (length ids) (selected data ids) m).
End Data.
