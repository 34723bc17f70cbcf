(** Base definitions used by all model files: Python dictionaries as insertion
    ordered association lists, membership tests, sorting, decimal formatting.
    These model the behaviour of the Python built-ins used by brainstorm, not
    brainstorm itself. *)
From Coq Require Import String Ascii List Arith Bool DecimalString.
Import ListNotations.
Open Scope string_scope.
Open Scope list_scope.
Open Scope nat_scope.

(** [x in l] for a list / set of strings. *)
Definition smem (x : string) (l : list string) : bool :=
  existsb (String.eqb x) l.

(** [x in l] for a list / set of naturals (used for object identities). *)
Definition nmem (x : nat) (l : list nat) : bool := existsb (Nat.eqb x) l.

(** Python [dict] with string keys: insertion ordered association list. *)
Definition dict (V : Type) := list (string * V).

(** [d.get(k)]. *)
Fixpoint dget {V} (k : string) (d : dict V) : option V :=
  match d with
  | [] => None
  | (k', v) :: r => if String.eqb k k' then Some v else dget k r
  end.

(** [d[k] = v]: an existing key keeps its position, a new one is appended. *)
Fixpoint dset {V} (k : string) (v : V) (d : dict V) : dict V :=
  match d with
  | [] => [(k, v)]
  | (k', v') :: r =>
      if String.eqb k k' then (k', v) :: r else (k', v') :: dset k v r
  end.

(** [d.keys()] *)
Definition dkeys {V} (d : dict V) : list string := map fst d.
(** [k in d] *)
Definition dmem {V} (k : string) (d : dict V) : bool := smem k (dkeys d).

(** [sorted(l)] for a boolean order: insertion sort (stable). *)
Fixpoint insert {A} (leb : A -> A -> bool) (x : A) (l : list A) : list A :=
  match l with
  | [] => [x]
  | y :: r => if leb x y then x :: y :: r else y :: insert leb x r
  end.

Definition isort {A} (leb : A -> A -> bool) (l : list A) : list A :=
  fold_right (insert leb) [] l.

(** Decimal representation of a natural number as produced by [format]. *)
Definition dec (n : nat) : string :=
  NilEmpty.string_of_uint (Nat.to_uint n).

(** ["{}_{}".format(base, i)] *)
Definition suffixed (base : string) (i : nat) : string :=
  (base ++ String "_" (dec i))%string.
