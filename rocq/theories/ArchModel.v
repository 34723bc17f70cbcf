(** Model of brainstorm/structure/architecture.py: validation, collecting the
    connections, and the canonical layer order. *)
From Coq Require Import String Ascii List Arith Bool.
From Verif Require Import PyBase UtilsModel NamesModel.
Import ListNotations.
Open Scope string_scope.
Open Scope list_scope.
Open Scope nat_scope.

(** The value of '@type' in a layer description. *)
Inductive type_value := TypeMissing | TypeString (s : string) | TypeOther.

(** The value of '@outgoing_connections' in a layer description: missing, a
    list/tuple of strings, a dict of lists of strings, or something else (for
    instance a set, which is rejected by the schema check in 92-95). *)
Inductive out_value :=
| OutMissing
| OutList (l : list string)
| OutDict (d : dict (list string))
| OutOther.

(** A layer description.  Simplified: layer kwargs are ignored (they are only
    passed on, architecture.py:158-160). *)
Record raw_layer := mkRaw { r_type : type_value; r_out : out_value }.

(** An architecture dictionary.  Simplified: the names are strings (non-string
    names are rejected by 83-84). *)
Definition raw_arch := dict raw_layer.

(** architecture.py:52-69 collect_all_outgoing_connections; [None] is the
    KeyError (missing entry) or the error for values of a wrong type. *)
Definition collect_all_outgoing_connections (l : raw_layer) (name : string)
  : option (list connection) :=
  match r_out l with
  | OutList cs => Some (map (parse_con name "default") cs)
  | OutDict d => Some (outgoing_connections name d)
  | OutMissing => None
  | OutOther => None
  end.

(** Tuple comparison of connections (a namedtuple, 16-18). *)
Definition lex (c : comparison) (rest : bool) : bool :=
  match c with Lt => true | Gt => false | Eq => rest end.
Definition con_leb (a b : connection) : bool :=
  lex (String.compare (c_start a) (c_start b))
   (lex (String.compare (c_out a) (c_out b))
     (lex (String.compare (c_end a) (c_end b))
       (String.leb (c_in a) (c_in b)))).

(** architecture.py:72-77, the loop. *)
Fixpoint collect_unsorted (a : raw_arch) : option (list connection) :=
  match a with
  | [] => Some []
  | (name, l) :: r =>
      match collect_all_outgoing_connections l name, collect_unsorted r with
      | Some x, Some y => Some (x ++ y)
      | _, _ => None
      end
  end.
(** architecture.py:72-77 collect_all_connections *)
Definition collect_all_connections (a : raw_arch) : option (list connection) :=
  match collect_unsorted a with
  | Some l => Some (isort con_leb l)
  | None => None
  end.

Inductive verdict :=
| Accepted                 (* returns True *)
| ValidationError          (* NetworkValidationError *)
| KeyError.                (* '@outgoing_connections' missing in line 54 *)

(** architecture.py:82-95, the checks for one layer. *)
Definition schema_ok (l : raw_layer) : bool :=
  match r_type l with
  | TypeString _ => match r_out l with OutOther => false | _ => true end
  | _ => false
  end.

Definition type_is_input (l : raw_layer) : bool :=
  match r_type l with TypeString s => String.eqb s "Input" | _ => false end.

(** architecture.py:80-124 validate_architecture *)
Definition validate_architecture (a : raw_arch) : verdict :=
  if negb (forallb (fun it => schema_ok (snd it)) a) then ValidationError
  else if negb (forallb is_valid_layer_name (dkeys a)) then ValidationError
  else
    match collect_all_connections a with
    | None => KeyError
    | Some cns =>
        let end_layers := map c_end cns in
        if negb (forallb (fun e => smem e (dkeys a)) end_layers) then ValidationError
        else
          match dget "Input" a with
          | None => ValidationError
          | Some l =>
              if negb (type_is_input l) then ValidationError
              else if smem "Input" end_layers then ValidationError
              else Accepted
          end
    end.

(** sorted(new_layers, reverse=True) *)
Definition sorted_desc (l : list string) : list string :=
  isort (fun a b => String.leb b a) l.

(** architecture.py:138-145: the layers added in one round. *)
Definition round_layers (names : list string) (cns : list connection)
  (layer_order : list string) : list string :=
  filter (fun l =>
            negb (smem l layer_order) &&
            forallb (fun c => if String.eqb (c_start c) l
                              then smem (c_end c) layer_order else true) cns)
         names.

(** architecture.py:137-150, the while loop ([None]: out of fuel). *)
Fixpoint order_loop (fuel : nat) (names : list string) (cns : list connection)
  (layer_order : list string) : option (list string) :=
  match fuel with
  | 0 => None
  | S f =>
      match round_layers names cns layer_order with
      | [] => Some layer_order
      | new_layers => order_loop f names cns (layer_order ++ sorted_desc new_layers)
      end
  end.

Inductive order_result :=
| OrderOk (l : list string)
| OrderAssertionError          (* line 154 *)
| OrderKeyError                (* from collect_all_connections *)
| OrderOutOfFuel.

(** architecture.py:127-155 get_canonical_layer_order *)
Definition get_canonical_layer_order (a : raw_arch) : order_result :=
  match collect_all_connections a with
  | None => OrderKeyError
  | Some cns =>
      match order_loop (S (length a)) (dkeys a) cns [] with
      | None => OrderOutOfFuel
      | Some lo =>
          match filter (fun l => negb (smem l lo)) (dkeys a) with
          | [] => OrderOk (rev lo)
          | _ => OrderAssertionError
          end
      end
  end.
