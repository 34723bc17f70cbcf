(** Model of parts of brainstorm/utils.py. *)
From Coq Require Import String Ascii List Arith NArith Bool.
From Verif Require Import PyBase.
Import ListNotations.
Open Scope string_scope.
Open Scope list_scope.
Open Scope nat_scope.

(** utils.py:17, character class [_a-zA-Z]. *)
Definition ident_start (c : ascii) : bool :=
  let n := N_of_ascii c in
  (N.eqb n 95 || ((65 <=? n) && (n <=? 90)) || ((97 <=? n) && (n <=? 122)))%N.

(** utils.py:17, character class [_a-zA-Z0-9]. *)
Definition ident_char (c : ascii) : bool :=
  let n := N_of_ascii c in
  ident_start c || ((48 <=? n) && (n <=? 57))%N.

Definition newline : ascii := ascii_of_N 10.

(** utils.py:17, the part [[_a-zA-Z0-9]*$] of the regular expression.  Python's
    [$] (without re.MULTILINE) matches at the end of the string and also just
    before a newline that is the last character of the string. *)
Fixpoint ident_tail (s : string) : bool :=
  match s with
  | "" => true
  | String c r =>
      if ident_char c then ident_tail r
      else Ascii.eqb c newline && String.eqb r ""
  end.

(** utils.py:17  PYTHON_IDENTIFIER.match(s) is not None. *)
Definition python_identifier (s : string) : bool :=
  match s with
  | "" => false
  | String c r => ident_start c && ident_tail r
  end.

(** utils.py:19 *)
Definition name_blacklist : list string := ["default"; "fallback"].

(** utils.py:22-25 *)
Definition is_valid_layer_name (s : string) : bool :=
  if smem s name_blacklist then false else python_identifier s.

(** str.partition('.') : text before the first dot and text after it
    (both "" rules of Python: no dot gives the whole string and ""). *)
Fixpoint partition_dot (s : string) : string * string :=
  match s with
  | "" => ("", "")
  | String c r =>
      if Ascii.eqb c "."%char then ("", r)
      else let (a, b) := partition_dot r in (String c a, b)
  end.

(** str.split('.') *)
Fixpoint split_dot (s : string) : list string :=
  match s with
  | "" => [""]
  | String c r =>
      if Ascii.eqb c "."%char then "" :: split_dot r
      else match split_dot r with
           | [] => [String c ""]
           | h :: t => String c h :: t
           end
  end.

(** Nested containers (lists / tuples of lists / tuples of leaves). *)
Inductive nested (A : Type) : Type :=
| Leaf : A -> nested A
| Node : list (nested A) -> nested A.
Arguments Leaf {A} _.
Arguments Node {A} _.

(** utils.py:70-77  flatten(container); the container itself is a list. *)
Fixpoint flatten1 {A} (x : nested A) : list A :=
  match x with
  | Leaf a => [a]
  | Node l => flat_map flatten1 l
  end.
Definition flatten {A} (c : list (nested A)) : list A := flat_map flatten1 c.

(** utils.py:80-89  convert_to_nested_indices; the mutable counter
    [start_idx] is threaded through, the functions return the structure and
    the new counter. *)
Fixpoint nest1 {A} (x : nested A) (i : nat) : nested nat * nat :=
  match x with
  | Leaf _ => (Leaf i, S i)
  | Node l =>
      let fix go l i :=
        match l with
        | [] => ([], i)
        | y :: r => let (y', i1) := nest1 y i in
                    let (r', i2) := go r i1 in (y' :: r', i2)
        end in
      let (l', i') := go l i in (Node l', i')
  end.
Fixpoint nest_list {A} (l : list (nested A)) (i : nat) : list (nested nat) * nat :=
  match l with
  | [] => ([], i)
  | y :: r => let (y', i1) := nest1 y i in
              let (r', i2) := nest_list r i1 in (y' :: r', i2)
  end.
Definition convert_to_nested_indices {A} (c : list (nested A)) : list (nested nat) :=
  fst (nest_list c 0).

(** str.replace('..', '@'): leftmost non-overlapping occurrences. *)
Fixpoint replace_dotdot (s : string) : string :=
  match s with
  | "" => ""
  | String c r =>
      match r with
      | String c2 r2 =>
          if Ascii.eqb c "."%char && Ascii.eqb c2 "."%char
          then String "@"%char (replace_dotdot r2)
          else String c (replace_dotdot r)
      | "" => String c ""
      end
  end.

Fixpoint has_char (x : ascii) (s : string) : bool :=
  match s with
  | "" => false
  | String c r => Ascii.eqb x c || has_char x r
  end.

(** Result of get_normalized_path: value or one of the two exceptions. *)
Inductive path_result :=
| PathOk (s : string)
| PathAssertionError    (* the assertions in lines 136 and 139 *)
| PathIndexError.       (* pop from an empty list, line 144 *)

(** utils.py:143-145: leading '@'s each pop one component (the component list
    is kept reversed). *)
Fixpoint strip_ats (p : string) (revparts : list string)
  : option (string * list string) :=
  match p with
  | String c r =>
      if Ascii.eqb c "@"%char
      then match revparts with
           | [] => None
           | _ :: t => strip_ats r t
           end
      else Some (p, revparts)
  | "" => Some ("", revparts)
  end.

(** utils.py:141-146 *)
Fixpoint normalize_parts (parts : list string) (revparts : list string)
  : option (list string) :=
  match parts with
  | [] => Some (rev revparts)
  | p :: r => match strip_ats p revparts with
              | None => None
              | Some (p', rp) => normalize_parts r (p' :: rp)
              end
  end.

(** utils.py:133-147  get_normalized_path *)
Definition get_normalized_path (args : list string) : path_result :=
  if existsb (has_char "@") args then PathAssertionError
  else
    let parts := flat_map (fun a => split_dot (replace_dotdot a)) args in
    if smem "" parts then PathAssertionError
    else match normalize_parts parts [] with
         | None => PathIndexError
         | Some l => PathOk (String.concat "." l)
         end.


(** Nested dictionaries. *)
Inductive dtree (V : Type) : Type :=
| DLeaf : V -> dtree V
| DDict : list (string * dtree V) -> dtree V.
Arguments DLeaf {V} _.
Arguments DDict {V} _.

(** utils.py:173-197 flatten_keys, the loop over the items of a dict. *)
Fixpoint flatten_keys_items {V} (t : dtree V) : list string :=
  match t with
  | DLeaf _ => []
  | DDict d =>
      flat_map (fun it : string * dtree V =>
                  match snd it with
                  | DLeaf _ => [fst it]
                  | DDict _ => map (fun x => (fst it ++ String "."%char x)%string)
                                   (flatten_keys_items (snd it))
                  end) d
  end.
Definition flatten_keys {V} (t : dtree V) : list string := flatten_keys_items t.

(** utils.py:120-129 get_by_path: the loop over path.split('.').  [None] is the
    KeyError (or the error of indexing a leaf). *)
Fixpoint get_by_parts {V} (t : dtree V) (parts : list string) : option (dtree V) :=
  match parts with
  | [] => Some t
  | p :: r =>
      match t with
      | DLeaf _ => None
      | DDict d => match dget p d with
                   | None => None
                   | Some t' => get_by_parts t' r
                   end
      end
  end.
(** utils.py:103-130 *)
Definition get_by_path {V} (t : dtree V) (path : string) : option (dtree V) :=
  get_by_parts t (split_dot path).
