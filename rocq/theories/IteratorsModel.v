(** Model of brainstorm/data_iterators.py. *)
From Coq Require Import String List Arith ZArith Bool.
From Verif Require Import PyBase.
Import ListNotations.
Open Scope string_scope.
Open Scope list_scope.
Open Scope nat_scope.

(** An array of shape (T, N, ...): the entry of time step t and sequence j is
    [a_at t j] (an array of the remaining dimensions). *)
Record array (A : Type) := mkArray { a_T : nat; a_N : nat; a_at : nat -> nat -> A }.
Arguments mkArray {A}. Arguments a_T {A}. Arguments a_N {A}. Arguments a_at {A}.

(** v[:tmax, lo:hi] for lo <= hi *)
Definition cut {A} (tmax lo hi : nat) (v : array A) : array A :=
  mkArray (Nat.min tmax (a_T v)) (Nat.min hi (a_N v) - Nat.min lo (a_N v)) (fun t j => a_at v t (lo + j)).

(** argmax of booleans *)
Fixpoint argmax (l : list bool) : nat :=
  match l with
  | [] => 0
  | true :: _ => 0
  | false :: r => if existsb (fun b => b) r then S (argmax r) else 0
  end.

Definition all_equal (l : list nat) : option nat :=
  match l with [] => None | x :: r => if forallb (Nat.eqb x) r then Some x else None end.
(** np.max: ValueError for an empty array *)
Definition np_max (l : list nat) : option nat :=
  match l with [] => None | x :: r => Some (fold_left Nat.max r x) end.
Definition py_slice {X} (lo hi : nat) (l : list X) : list X := firstn (hi - lo) (skipn lo l).
(** math.ceil(n / b) *)
Definition ceil_div (n b : nat) : nat := (n + b - 1) / b.

Section Minibatches.
  Variable A : Type.
  Variable nonzero : A -> bool.        (* x[0] != 0 *)

  (** data_iterators.py:469-493 _assert_correct_data_format: (N, T); [None] is
      the IteratorValidationError (or ValueError for no data). *)
  Definition check_format (named_data : dict (array A)) : option (nat * nat) :=
    match all_equal (map (fun kv => a_N (snd kv)) named_data), all_equal (map (fun kv => a_T (snd kv)) named_data) with
    | Some n, Some t => Some (n, t)
    | _, _ => None
    end.

  (** data_iterators.py:496-501 _calculate_lengths_from_mask *)
  Definition lengths_from_mask (mask : array A) : list nat :=
    map (fun j => let b := map (fun t => nonzero (a_at mask t j)) (seq 0 (a_T mask)) in
                  if existsb (fun x => x) b then a_T mask - argmax (rev b) else 0)
        (seq 0 (a_N mask)).

  (** The argument cut_according_to. *)
  Inductive cut_arg := ByName (name : string) | ByLengths (l : list nat) | ByNone.

  Record minibatches := mkMini { mi_data : dict (array A); mi_batch : nat; mi_length : nat; mi_lens : list nat }.
  (** data_iterators.py:414-454 __init__.  Simplification: the assertion that the
      mask has one feature is not modelled. *)
  Definition new_minibatches (batch_size : nat) (c : cut_arg) (named_data : dict (array A)) : option minibatches :=
    match check_format named_data with
    | None => None
    | Some (n, t) =>
        if batch_size =? 0 then None       (* ZeroDivisionError *)
        else
          let lens := match c with
            | ByName name => match dget name named_data with
                             | Some m => Some (lengths_from_mask m)
                             | None => Some (repeat t n)
                             end
            | ByNone => Some (repeat t n)
            | ByLengths l => if length l =? n then Some l else None
            end in
          match lens with
          | None => None
          | Some l => Some (mkMini named_data batch_size (ceil_div n batch_size) l)
          end
    end.

  (** data_iterators.py:461-466: one batch. *)
  Definition batch (m : minibatches) (idx : nat) : option (dict (array A)) :=
    let lo := idx * mi_batch m in let hi := (idx + 1) * mi_batch m in
    match np_max (py_slice lo hi (mi_lens m)) with
    | None => None
    | Some tmax => Some (map (fun kv => (fst kv, cut tmax lo hi (snd kv))) (mi_data m))
    end.
  (** data_iterators.py:456-466 __call__; [indices] is np.arange(self.length),
      shuffled or not. *)
  Fixpoint batches (m : minibatches) (indices : list nat) : option (list (dict (array A))) :=
    match indices with
    | [] => Some []
    | i :: r => match batch m i, batches m r with
                | Some b, Some bs => Some (b :: bs)
                | _, _ => None
                end
    end.
End Minibatches.

(** * Wrapped iterators *)
(** The state of an iterator between passes is the data of the innermost one.
    The yielded dictionary maps names to arrays; the boolean tells that the array
    still is a view of the data of the innermost iterator, so that assigning to
    its elements changes them. *)
Section Wrapped.
  Variables A Rnd : Type.

  (** One entry of the dictionary of a wrapper (key and parameters) as what is
      done to the data: a new array is stored in the dictionary
      (AddGaussianNoise, data_iterators.py:81-87; AddSaltNPepper 131-140; OneHot
      222-231; MultiHot 267-273; Pad 313-323; RandomCrop 362-376), or the elements are
      overwritten ([w_inplace], Flip 178-185).  [None]: exception. *)
  Record wrapper := mkWrapper { w_key : string; w_inplace : bool; w_fun : Rnd -> array A -> option (array A) }.

  Definition yielded := dict (bool * array A).
  (** The data of the innermost iterator after assigning the elements of the view
      v[:T', lo:lo+N'] of entry [key]. *)
  Definition write_back (key : string) (lo : nat) (a : array A) (base : dict (array A)) : dict (array A) :=
    match dget key base with
    | None => base
    | Some v => dset key (mkArray (a_T v) (a_N v)
                  (fun t j => if (t <? a_T a) && (lo <=? j) && (j <? lo + a_N a) then a_at a t (j - lo) else a_at v t j)) base
    end.
  Definition apply_wrapper (w : wrapper) (r : Rnd) (lo : nat) (d : yielded) (base : dict (array A))
    : option (yielded * dict (array A)) :=
    match dget (w_key w) d with
    | None => None
    | Some (view, a) =>
        match w_fun w r a with
        | None => None
        | Some a' =>
            if w_inplace w then Some (dset (w_key w) (view, a') d, if view then write_back (w_key w) lo a' base else base)
            else Some (dset (w_key w) (false, a') d, base)
        end
    end.
  (** All wrappers, innermost first, on one yielded dictionary. *)
  Fixpoint apply_wrappers (ws : list wrapper) (rs : list Rnd) (lo : nat) (d : yielded) (base : dict (array A))
    : option (yielded * dict (array A)) :=
    match ws, rs with
    | [], _ => Some (d, base)
    | w :: ws', r :: rs' =>
        match apply_wrapper w r lo d base with
        | None => None
        | Some (d', base') => apply_wrappers ws' rs' lo d' base'
        end
    | _, [] => None
    end.
  Definition views (d : dict (array A)) : yielded := map (fun kv => (fst kv, (true, snd kv))) d.
  Definition arrays (d : yielded) : dict (array A) := map (fun kv => (fst kv, snd (snd kv))) d.

  (** data_iterators.py:384-397 Undivided: yields the dictionary self.data itself,
      so afterwards self.data is the yielded dictionary.  Result: the yielded
      data and the new self.data. *)
  Definition undivided_pass (ws : list wrapper) (rs : list Rnd) (data : dict (array A))
    : option (list (dict (array A)) * dict (array A)) :=
    match apply_wrappers ws rs 0 (views data) data with
    | None => None
    | Some (d, _) => Some ([arrays d], arrays d)
    end.

  (** A pass over wrapped Minibatches: every batch is a new dictionary of views. *)
  Fixpoint minibatches_pass (ws : list wrapper) (indices : list nat) (rss : list (list Rnd)) (m : minibatches A)
    : option (list (dict (array A)) * minibatches A) :=
    match indices, rss with
    | [], _ => Some ([], m)
    | i :: is, rs :: rss' =>
        match batch A m i with
        | None => None
        | Some b =>
            match apply_wrappers ws rs (i * mi_batch A m) (views b) (mi_data A m) with
            | None => None
            | Some (d, base) =>
                match minibatches_pass ws is rss' (mkMini A base (mi_batch A m) (mi_length A m) (mi_lens A m)) with
                | None => None
                | Some (ds, m') => Some (arrays d :: ds, m')
                end
            end
        end
    | _, [] => None
    end.
End Wrapped.

(** * Single images and labels *)
(** An image of shape (H, W, C): [i_at i j] are the channels of pixel (i, j). *)
Record image (P : Type) := mkImage { i_H : nat; i_W : nat; i_at : nat -> nat -> P }.
Arguments mkImage {P}. Arguments i_H {P}. Arguments i_W {P}. Arguments i_at {P}.

(** np.eye(vocab_size)[label]: negative labels count from the end, [None] is the
    IndexError (data_iterators.py:226). *)
Definition eye_index (vocab_size : nat) (label : Z) : option nat :=
  if (0 <=? label)%Z && (label <? Z.of_nat vocab_size)%Z then Some (Z.to_nat label)
  else if (- Z.of_nat vocab_size <=? label)%Z && (label <? 0)%Z then Some (Z.to_nat (label + Z.of_nat vocab_size))
  else None.
Definition one_hot (vocab_size : nat) (label : Z) : option (list bool) :=
  match eye_index vocab_size label with
  | None => None
  | Some k => Some (map (fun j => j =? k) (seq 0 vocab_size))
  end.
(** data_iterators.py:271: np.eye(vocab_size)[labels].max(2): elementwise or;
    [None] for no labels (max of an empty axis) or an IndexError. *)
Fixpoint multi_hot (vocab_size : nat) (labels : list Z) : option (list bool) :=
  match labels with
  | [] => None
  | [l] => one_hot vocab_size l
  | l :: r => match one_hot vocab_size l, multi_hot vocab_size r with
              | Some a, Some b => Some (map (fun p => fst p || snd p) (combine a b))
              | _, _ => None
              end
  end.

(** The slice size:-size of an axis of length n: start and length. *)
Definition minus_slice (size n : nat) : nat * nat :=
  let stop := if size =? 0 then 0 else n - size in
  (Nat.min size n, stop - Nat.min size n).
(** Source index along one axis when an axis of length [src] is assigned to one
    of length [dst]; [None] is the ValueError (could not broadcast). *)
Definition broadcast (src dst : nat) : option (nat -> nat) :=
  if src =? dst then Some (fun i => i) else if src =? 1 then Some (fun _ => 0) else None.
(** data_iterators.py:316-322 Pad for one image *)
Definition pad {P} (size : nat) (val : P) (img : image P) : option (image P) :=
  let h := i_H img + 2 * size in let w := i_W img + 2 * size in
  let '(r0, rn) := minus_slice size h in let '(c0, cn) := minus_slice size w in
  match broadcast (i_H img) rn, broadcast (i_W img) cn with
  | Some fr, Some fc =>
      Some (mkImage h w (fun i j => if (r0 <=? i) && (i <? r0 + rn) && (c0 <=? j) && (j <? c0 + cn)
                                    then i_at img (fr (i - r0)) (fc (j - c0)) else val))
  | _, _ => None
  end.

(** data_iterators.py:365-375 RandomCrop for one image with the drawn indices
    (random_integers(0, max): ValueError if max < 0; the indices are between 0
    and max), _cpuop.pyx:207-244. *)
Definition crop {P} (crop_h crop_w row col : nat) (img : image P) : option (image P) :=
  if (crop_h <=? i_H img) && (crop_w <=? i_W img) && (row <=? i_H img - crop_h) && (col <=? i_W img - crop_w)
  then Some (mkImage crop_h crop_w (fun k l => i_at img (k + row) (l + col)))
  else None.

(** data_iterators.py:184 Flip of one image: a[:, ::-1] (the right hand side is
    read before it is overwritten). *)
Definition flip {P} (img : image P) : image P :=
  mkImage (i_H img) (i_W img) (fun i j => i_at img i (i_W img - 1 - j)).
