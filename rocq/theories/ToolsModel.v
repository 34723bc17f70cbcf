(** Model of extract, shuffle_data and split of brainstorm/tools.py. *)
From Coq Require Import String List Arith ZArith QArith Qround Bool.
From Verif Require Import PyBase IteratorsModel.
Import ListNotations.
Open Scope string_scope.
Open Scope list_scope.
Open Scope nat_scope.

Section Arrays.
  Variable A : Type.
  Variable zero : A.

  Definition zeros (t n : nat) : array A := mkArray t n (fun _ _ => zero).

  (** target[:, lo:hi] = src (numpy's assignment with broadcasting of axes of
      length 1; [None] is the ValueError).  The remaining axes are inside of [A]. *)
  Definition assign_columns (target : array A) (lo hi : nat) (src : array A) : option (array A) :=
    let lo' := Nat.min lo (a_N target) in let hi' := Nat.min hi (a_N target) in
    match broadcast (a_T src) (a_T target), broadcast (a_N src) (hi' - lo') with
    | Some ft, Some fn =>
        Some (mkArray (a_T target) (a_N target)
                (fun t j => if (lo' <=? j) && (j <? hi') then a_at src (ft t) (fn (j - lo')) else a_at target t j))
    | _, _ => None
    end.

  (** What network.get gives after the forward pass of one batch: buffers by
      dotted name. *)
  Definition buffers := string -> option (array A).

  (** tools.py:112-120, the loop over the buffer names of one batch ([num = 0] is
      the flag [first]).  Simplification: a slice with negative start (buffers of
      one batch with different numbers of sequences) is an error. *)
  Fixpoint extract_names (nr_examples : nat) (b : buffers) (first_pass : bool) (names : list string) (first : bool)
    (return_data : dict (array A)) (nr_items : nat) : option (dict (array A) * nat) :=
    match names with
    | [] => Some (return_data, nr_items)
    | name :: r =>
        match b name with
        | None => None
        | Some data =>
            let nr := if first then nr_items + a_N data else nr_items in
            let rd := if first_pass then dset name (zeros (a_T data) nr_examples) return_data else return_data in
            if nr <? a_N data then None
            else
            match dget name rd with
            | None => None
            | Some target =>
                match assign_columns target (nr - a_N data) nr data with
                | None => None
                | Some target' => extract_names nr_examples b first_pass r false (dset name target' rd) nr
                end
            end
        end
    end.
  (** tools.py:107-121, the loop over the batches *)
  Fixpoint extract_loop (nr_examples : nat) (names : list string) (batches : list buffers)
    (return_data : dict (array A)) (nr_items : nat) : option (dict (array A)) :=
    match batches with
    | [] => Some return_data
    | b :: r =>
        let first_pass := negb (length return_data =? length names) in
        match extract_names nr_examples b first_pass names true return_data nr_items with
        | None => None
        | Some (rd, nr) => extract_loop nr_examples names r rd nr
        end
    end.
  (** tools.py:85-121 *)
  Definition extract (nr_examples : nat) (names : list string) (batches : list buffers) : option (dict (array A)) :=
    extract_loop nr_examples names batches [] 0.

  (** A[:, idxs] *)
  Definition take (idxs : list nat) (a : array A) : option (array A) :=
    if forallb (fun i => i <? a_N a) idxs then Some (mkArray (a_T a) (length idxs) (fun t j => a_at a t (nth j idxs 0))) else None.
  Fixpoint map_opt {X Y} (f : X -> option Y) (l : list X) : option (list Y) :=
    match l with [] => Some [] | x :: r => match f x, map_opt f r with Some y, Some ys => Some (y :: ys) | _, _ => None end end.
  (** tools.py:602-619 shuffle_data; [shuffle] is what rnd.shuffle does to a list
      of indices.  An argument is [None] or an array; [None] as first argument is
      an AttributeError. *)
  Definition shuffle_data (shuffle : list nat -> list nat) (args : list (option (array A))) : option (list (option (array A))) :=
    match args with
    | Some a0 :: _ =>
        let idxs := shuffle (seq 0 (a_N a0)) in
        map_opt (fun a => match a with None => Some None | Some a => match take idxs a with Some b => Some (Some b) | None => None end end) args
    | _ => None
    end.

  (** np.cumsum *)
  Fixpoint cumsum (acc : Q) (l : list Q) : list Q :=
    match l with [] => [] | x :: r => (acc + x)%Q :: cumsum (acc + x)%Q r end.
  Definition qsum (l : list Q) : Q := fold_right Qplus 0%Q l.
  (** np.round: half to even *)
  Definition round_half_even (q : Q) : Z :=
    let f := Qfloor q in
    match ((q - inject_Z f) ?= 1 # 2)%Q with
    | Lt => f
    | Gt => (f + 1)%Z
    | Eq => if Z.even f then f else (f + 1)%Z
    end.
  (** A[:, start:stop] for 0 <= start, stop *)
  Definition columns (start stop : nat) (a : array A) : array A :=
    let lo := Nat.min start (a_N a) in let hi := Nat.min stop (a_N a) in
    mkArray (a_T a) (hi - lo) (fun t j => a_at a t (lo + j)).
  (** tools.py:637-640: split_idxs (with the leading 0) *)
  Definition split_idxs (ratios : list Q) (n : nat) : list Z :=
    let s := qsum ratios in
    0%Z :: map (fun c => round_half_even (c * inject_Z (Z.of_nat n))) (cumsum 0 (map (fun r => r / s)%Q ratios)).
  Fixpoint pairs {X} (l : list X) : list (X * X) :=
    match l with x :: ((y :: _) as r) => (x, y) :: pairs r | _ => [] end.
  (** tools.py:622-646 split.  Simplification: exact rational arithmetic, and
      negative indices (only for negative ratios) count as 0. *)
  Definition split (ratios : list Q) (args : list (option (array A))) : option (list (list (option (array A)))) :=
    match args with
    | Some a0 :: _ =>
        Some (map (fun p => map (option_map (columns (Z.to_nat (fst p)) (Z.to_nat (snd p)))) args) (pairs (split_idxs ratios (a_N a0))))
    | _ => None
    end.
End Arrays.
