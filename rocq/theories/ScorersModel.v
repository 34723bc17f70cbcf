(** Model of brainstorm/scorers.py and of tools.py:52-82 evaluate. *)
From Coq Require Import String List Arith Bool Reals.
From Verif Require Import PyBase HooksModel.
Import ListNotations.
Open Scope string_scope.
Open Scope list_scope.
Open Scope nat_scope.

(** One row of the flattened arrays: labels, predictions and (if a mask is used)
    the mask of one time step of one sequence. *)
Record sample := mkSample { sa_label : list R; sa_pred : list R; sa_mask : option (list R) }.

(** Entry [i] of a row when broadcast to a wider shape.  Simplification: rows
    with incompatible lengths (ValueError) are read as zero-padded. *)
Definition bget (r : list R) (i : nat) : R := if length r =? 1 then nth 0 r 0%R else nth i r 0%R.
Definition width (a b : list R) : nat := if length a =? 1 then length b else length a.

(** argmax: the first index of the largest value *)
Fixpoint argmax_from (best : R) (bi i : nat) (l : list R) : nat :=
  match l with
  | [] => bi
  | x :: r => if Rlt_dec best x then argmax_from x i (S i) r else argmax_from best bi (S i) r
  end.
Definition rargmax (l : list R) : nat := match l with [] => 0 | x :: r => argmax_from x 0 1 r end.

(** [correct *= mask] for a row *)
Definition masked (m : option (list R)) (i : nat) (x : R) : R :=
  match m with None => x | Some m => (x * bget m i)%R end.

Inductive kind := Accuracy | Hamming (threshold : R) | MeanSquaredError.
(** The elements of the array that is summed up, for one row. *)
Definition row_elements (k : kind) (s : sample) : list R :=
  match k with
  | Accuracy =>       (* scorers.py:68-74 *)
      let p := if 1 <? length (sa_pred s) then [INR (rargmax (sa_pred s))] else sa_pred s in
      map (fun i => masked (sa_mask s) i (if Req_EM_T (bget p i) (bget (sa_label s) i) then 1 else 0)%R) (seq 0 (width p (sa_label s)))
  | Hamming th =>     (* scorers.py:83-88 *)
      map (fun i => masked (sa_mask s) i
             (if xorb (if Rlt_dec (bget (sa_pred s) i) th then true else false)
                      (if Req_EM_T (bget (sa_label s) i) 0 then false else true) then 1 else 0)%R) (seq 0 (width (sa_pred s) (sa_label s)))
  | MeanSquaredError => (* scorers.py:92-96 *)
      map (fun i => masked (sa_mask s) i (Rsqr (bget (sa_label s) i - bget (sa_pred s) i))) (seq 0 (width (sa_label s) (sa_pred s)))
  end.
(** scorers.py:67-96, the __call__ methods; [labels] is true_labels.shape[1] *)
Definition call (k : kind) (labels : nat) (l : list sample) : R :=
  match k with
  | Accuracy => rsum (flat_map (row_elements k) l)
  | Hamming _ => (rsum (flat_map (row_elements k) l) / INR labels)%R
  | MeanSquaredError => (/ 2 * rsum (flat_map (row_elements k) l))%R
  end.
(** scorers.py:51 weight = mask.sum() or predicted.shape[0] *)
Definition weight (l : list sample) : R :=
  rsum (map (fun s => match sa_mask s with None => 1%R | Some m => rsum m end) l).
(** scorers.py:25-29 Scorer.aggregate *)
Definition aggregate (errors : list (R * R)) : R := (rsum (map snd errors) / rsum (map fst errors))%R.
(** scorers.py:107-110 _weighted_average *)
Definition weighted_average (errors : list (R * R)) : R :=
  rsum (map (fun e => snd e * fst e / rsum (map fst errors))%R errors).

(** A scorer: its __name__, what it computes, and the number of label columns of
    the buffer it looks at. *)
Record scorer := mkScorer { sc_name : string; sc_kind : kind; sc_labels : nat }.
(** The network after the forward pass of a batch: its batch size, losses, and
    for each scorer (by position: out_name, targets_name and mask_name select the
    buffers) the flattened rows. *)
Record net_state := mkNet { n_batch : nat; n_losses : dict R; n_rows : nat -> list sample }.

(** scores[name].append(x); [None] is the KeyError *)
Definition append (name : string) (x : R * R) (scores : dict (list (R * R))) : option (dict (list (R * R))) :=
  match dget name scores with None => None | Some l => Some (dset name (l ++ [x]) scores) end.
Fixpoint appends (xs : list (string * (R * R))) (scores : dict (list (R * R))) : option (dict (list (R * R))) :=
  match xs with [] => Some scores | (n, x) :: r => match append n x scores with None => None | Some s => appends r s end end.
(** scorers.py:34-53 gather_losses_and_scores *)
Fixpoint enumerate {X} (i : nat) (l : list X) : list (nat * X) :=
  match l with [] => [] | x :: r => (i, x) :: enumerate (S i) r end.
Definition gather (scorers : list scorer) (n : net_state) (scores : dict (list (R * R))) : option (dict (list (R * R))) :=
  appends (map (fun kv => (fst kv, (INR (n_batch n), snd kv))) (n_losses n) ++
           map (fun p => (sc_name (snd p), (weight (n_rows n (fst p)), call (sc_kind (snd p)) (sc_labels (snd p)) (n_rows n (fst p)))))
               (enumerate 0 scorers)) scores.
Fixpoint gather_all (scorers : list scorer) (ns : list net_state) (scores : dict (list (R * R))) : option (dict (list (R * R))) :=
  match ns with [] => Some scores | n :: r => match gather scorers n scores with None => None | Some s => gather_all scorers r s end end.
(** scorers.py:56-62 aggregate_losses_and_scores *)
Fixpoint set_all (xs : list (string * (list (R * R) -> R))) (scores : dict (list (R * R))) (results : dict R) : option (dict R) :=
  match xs with
  | [] => Some results
  | (n, f) :: r => match dget n scores with None => None | Some l => set_all r scores (dset n (f l) results) end
  end.
Definition aggregate_all (loss_names : list string) (scorers : list scorer) (scores : dict (list (R * R))) : option (dict R) :=
  set_all (map (fun n => (n, weighted_average)) loss_names ++ map (fun sc => (sc_name sc, aggregate)) scorers) scores [].
(** tools.py:52-82 evaluate (also used by MonitorScores, hooks.py, and for the
    training losses, trainer.py); [loss_names] are the names get_loss_values
    returns for this network, [ns] its states after each batch. *)
Definition evaluate (loss_names : list string) (scorers : list scorer) (ns : list net_state) : option (dict R) :=
  let scores := fold_left (fun d n => dset n [] d) (map sc_name scorers ++ loss_names) [] in
  match gather_all scorers ns scores with
  | None => None
  | Some s => aggregate_all loss_names scorers s
  end.
