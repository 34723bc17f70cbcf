(** Model of brainstorm/structure/buffer_structure.py (shapes, validation,
    templates, combination). *)
From Coq Require Import List ZArith Bool.
Import ListNotations.
Open Scope list_scope.
Open Scope Z_scope.

(** Entries of a shape tuple: 'T', 'B', 'F', '...', an int, anything else
    (carrying an identity, so that two of them can be compared). *)
Inductive sdim := DT | DB | DF | DDots | DInt (z : Z) | DOther (n : nat).

Definition sdim_eqb (a b : sdim) : bool :=
  match a, b with
  | DT, DT | DB, DB | DF, DF | DDots, DDots => true
  | DInt x, DInt y => Z.eqb x y
  | DOther m, DOther n => Nat.eqb m n
  | _, _ => false
  end.

(** [x in shape] *)
Definition dmem (x : sdim) (l : list sdim) : bool := existsb (sdim_eqb x) l.

Definition is_int (x : sdim) : bool := match x with DInt _ => true | _ => false end.

Fixpoint dims_eqb (a b : list sdim) : bool :=
  match a, b with
  | [], [] => true
  | x :: a', y :: b' => sdim_eqb x y && dims_eqb a' b'
  | _, _ => false
  end.

(** buffer_structure.py:130-135 (and 21-26): buffer_type = first_feature_dim *)
Definition buffer_type (shape : list sdim) : nat :=
  if dmem DT shape then 2%nat else if dmem DB shape then 1%nat else 0%nat.

(** buffer_structure.py:152-153 *)
Definition feature_shape (shape : list sdim) : list sdim := skipn (buffer_type shape) shape.
(** buffer_structure.py:148-149 *)
Definition scaling_shape (shape : list sdim) : list sdim := firstn (buffer_type shape) shape.

(** A context_size argument: an int or something else (None). *)
Definition ctx_arg := option Z.

(** buffer_structure.py:74-84 and 189-199 (identical code): the context checks. *)
Definition context_ok (shape : list sdim) (ctx : ctx_arg) : bool :=
  match ctx with
  | None => false
  | Some c => negb (c <? 0) && negb (negb (c =? 0) && negb (dmem DT shape))
  end.

(** buffer_structure.py:164-199 BufferStructure.validate; true = no exception. *)
Definition structure_valid (shape : list sdim) (ctx : ctx_arg) : bool :=
  if (length shape =? 0)%nat then false
  else if dmem DT shape && negb (dims_eqb (firstn 2 shape) [DT; DB]) then false
  else if negb (dmem DT shape) && dmem DB shape && negb (dims_eqb (firstn 1 shape) [DB]) then false
  else if (length shape <=? buffer_type shape)%nat then false
  else if negb (forallb is_int (feature_shape shape)) then false
  else context_ok shape ctx.

(** buffer_structure.py:35-84 StructureTemplate.validate; true = no exception. *)
Definition template_valid (shape : list sdim) (ctx : ctx_arg) : bool :=
  if (length shape =? 0)%nat then false
  else if dmem DT shape && negb (dims_eqb (firstn 2 shape) [DT; DB]) then false
  else if negb (dmem DT shape) && dmem DB shape && negb (dims_eqb (firstn 1 shape) [DB]) then false
  else if (length shape <? buffer_type shape)%nat then false
  else
    let features_ok :=
      if dmem DDots shape then dims_eqb (feature_shape shape) [DDots]
      else if dmem DF shape then forallb (sdim_eqb DF) (feature_shape shape)
      else forallb is_int (feature_shape shape) in
    if negb features_ok then false else context_ok shape ctx.

(** buffer_structure.py:94-102: the loop over zip(shape.shape, self.shape). *)
Fixpoint matches_loop (s t : list sdim) : bool :=
  match s, t with
  | x :: s', y :: t' =>
      if sdim_eqb y x then matches_loop s' t'
      else match y with
           | DF => if is_int x then matches_loop s' t' else false
           | DDots => matches_loop s' t'
           | _ => false
           end
  | _, _ => true
  end.

(** buffer_structure.py:86-103 StructureTemplate.matches *)
Definition template_matches (t s : list sdim) : bool :=
  if negb (dmem DDots t) && negb (length s =? length t)%nat then false
  else if dmem DDots t && (length s <? length t)%nat then false
  else matches_loop s t.

(** buffer_structure.py:155-157 feature_size *)
Definition dim_value (x : sdim) : Z := match x with DInt z => z | _ => 1 end.
Definition feature_size (shape : list sdim) : Z :=
  fold_right Z.mul 1 (map dim_value (feature_shape shape)).

Definition all_equal_nat (l : list nat) : bool :=
  match l with [] => true | x :: r => forallb (Nat.eqb x) r end.

Inductive combine_result := Combined (shape : list sdim) | DimMismatch | TypeMismatch | FeatureMismatch.

(** buffer_structure.py:262-297 combine_buffer_structures (the resulting
    context size is 0).  min(l) != max(l) is [all_equal_nat]. *)
Definition combine_buffer_structures (shapes : list (list sdim)) : combine_result :=
  match shapes with
  | [] => Combined [DInt 0]
  | s0 :: _ =>
      if negb (all_equal_nat (map (@length sdim) shapes)) then DimMismatch
      else if negb (all_equal_nat (map buffer_type shapes)) then TypeMismatch
      else
        let fixed := removelast (feature_shape s0) in
        if negb (forallb (fun s => dims_eqb (removelast (feature_shape s)) fixed) shapes) then FeatureMismatch
        else
          let summed := fold_right Z.add 0 (map (fun s => dim_value (last (feature_shape s) (DInt 0))) shapes) in
          Combined (scaling_shape s0 ++ fixed ++ [DInt summed])
  end.
