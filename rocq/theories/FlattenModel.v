(** Model of the flatten functions of brainstorm/utils.py and of numpy's
    reshape, on the views of BuffersModel: when is the result another view of
    the same memory, when a copy? *)
From Coq Require Import String List Arith Bool.
From Verif Require Import PyBase HubModel LayoutModel BuffersModel.
Import ListNotations.
Open Scope list_scope.
Open Scope nat_scope.

(** ** numpy's reshape (C order) for arrays without an axis of length 0.
    PyArray_Newshape makes a copy when _attempt_nocopy_reshape (numpy,
    multiarray/shape.c) fails; this is that function.  Axes of length 1 are
    dropped first, then the shortest groups of old and new axes with the same
    number of elements are found. *)
Definition drop_ones (dims : list (nat * nat)) : list (nat * nat) := filter (fun d => negb (fst d =? 1)) dims.
(** the axes of a group form one contiguous axis *)
Fixpoint chained (g : list (nat * nat)) : bool :=
  match g with
  | d :: r => match r with e :: _ => (snd d =? fst e * snd e) && chained r | [] => true end
  | [] => true
  end.
(** the new axes of a group, the last one having stride s *)
Definition scaled (s : nat) (shape : list nat) : list (nat * nat) := map (fun d => (fst d, snd d * s)) (c_dims shape).
Fixpoint group (fuel np op : nat) (ng : list nat) (og : list (nat * nat)) (new : list nat) (old : list (nat * nat))
  : option (list nat * list (nat * nat) * list nat * list (nat * nat)) :=
  if np =? op then Some (ng, og, new, old)
  else match fuel with
       | 0 => None
       | S fuel =>
           if np <? op then match new with [] => None | n :: new => group fuel (np * n) op (ng ++ [n]) og new old end
           else match old with [] => None | o :: old => group fuel np (op * fst o) ng (og ++ [o]) new old end
       end.
Fixpoint regroup (fuel : nat) (new : list nat) (old : list (nat * nat)) : option (list (nat * nat)) :=
  match new, old, fuel with
  | [], _, _ => Some []
  | _, [], _ => Some (map (fun n => (n, 1)) new)   (* only axes of length 1 are left *)
  | _, _, 0 => None
  | n :: new', o :: old', S fuel' =>
      match group (length new' + length old') n (fst o) [n] [o] new' old' with
      | Some (ng, og, new'', old'') =>
          if chained og then
            match regroup fuel' new'' old'' with
            | Some r => Some (scaled (snd (last og (0, 0))) ng ++ r)
            | None => None
            end
          else None
      | None => None
      end
  end.
Inductive reshaped := RView (a : arr) | RCopy | RError.
Definition reshape (a : arr) (new : list nat) : reshaped :=
  if prod (a_shape a) =? prod new then
    match regroup (length new) new (drop_ones (a_dims a)) with
    | Some dims => RView (mkArr (a_off a) dims)
    | None => RCopy
    end
  else RError.

(** ** utils.py:150-170; RError also stands for the assertions *)
(** utils.py:150-154 flatten_time *)
Definition flatten_time (a : arr) : reshaped :=
  match a_shape a with t :: b :: f => if length f =? 0 then RError else reshape a ((t * b) :: f) | _ => RError end.
(** utils.py:157-161 flatten_time_and_features *)
Definition flatten_time_and_features (a : arr) : reshaped :=
  match a_shape a with t :: b :: f => if length f =? 0 then RError else reshape a [t * b; prod f] | _ => RError end.
(** utils.py:164-166 flatten_features *)
Definition flatten_features (a : arr) (start : nat) : reshaped :=
  reshape a (firstn start (a_shape a) ++ [prod (skipn start (a_shape a))]).
(** utils.py:169-170 flatten_all_but_last; x.reshape(-1, x.shape[-1]) in
    numpy_handler.py:222-225 (merge_tt) and 252-254 (split_add_tt) is the same *)
Definition flatten_all_but_last (a : arr) : reshaped :=
  match a_shape a with [] => RError | _ => reshape a [prod (removelast (a_shape a)); last (a_shape a) 0] end.
(** mask_layer.py:44-47 flatten_buffer *)
Definition mask_flatten (flatten_dim : nat) (a : arr) : reshaped :=
  reshape a [prod (firstn flatten_dim (a_shape a)); prod (skipn flatten_dim (a_shape a))].

(** ** Memory: a copy is a new array behind all memory in use *)
Definition mem (V : Type) := nat -> V.
Definition write {V} (m : mem V) (p : nat) (v : V) : mem V := fun q => if q =? p then v else m q.
(** index number k of a shape in row-major order *)
Fixpoint unravel (shape : list nat) (k : nat) : list nat :=
  match shape with [] => [] | n :: r => k / prod r :: unravel r (k mod prod r) end.
(** (memory, the array, end of the memory in use) after r = a.reshape(new) *)
Definition run_reshape {V} (m : mem V) (used : nat) (a : arr) (new : list nat) (r : reshaped) : option (mem V * arr * nat) :=
  match r with
  | RView a' => Some (m, a', used)
  | RCopy => Some (fun q => if (used <=? q) && (q <? used + prod new) then m (address a (unravel (a_shape a) (q - used))) else m q,
                   c_array used new, used + prod new)
  | RError => None
  end.
(** out[:] = values (row-major) *)
Fixpoint assign {V} (m : mem V) (out : arr) (idxs : list (list nat)) (values : list V) : mem V :=
  match idxs, values with
  | i :: idxs, v :: values => assign (write m (address out i) v) out idxs values
  | _, _ => m
  end.
