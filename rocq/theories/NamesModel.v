(** Model of brainstorm/structure/construction.py: uniquely named layers,
    wiring with >>, and (from architecture.py) generate_architecture.

    Layer objects are identified by their creation_id (construction.py:25-26,
    a global counter, so the n-th created layer has id n).  A scope is a
    mutable dictionary shared by several layers; it is identified by the
    creation_id of the layer whose __init__ created the dictionary. *)
From Coq Require Import String Ascii List Arith Bool.
From Verif Require Import PyBase UtilsModel.
Import ListNotations.
Open Scope string_scope.
Open Scope list_scope.
Open Scope nat_scope.

(** construction.py:22-26 and 64-97: a layer object.  [l_out] is
    LayerDetails.outgoing, [l_in] LayerDetails.incoming.  Simplified: the layer
    kwargs are not represented here. *)
Record layer := mkLayer {
  l_base : string;                             (* _basename *)
  l_type : string;                             (* layer_type *)
  l_scope : nat;                               (* which dictionary self.scope is *)
  l_out : list (string * string * nat);        (* (output_name, input_name, layer) *)
  l_in : list (nat * string * string)          (* (layer, output_name, input_name) *)
}.

(** All live objects: layers by creation_id and scope dictionaries by id. *)
Record world := mkWorld {
  w_layers : list layer;
  w_scopes : list (dict (list nat))
}.

Definition empty_world : world := mkWorld [] [].

Fixpoint set_nth {A} (n : nat) (x : A) (l : list A) {struct l} : list A :=
  match l, n with
  | [], _ => []
  | _ :: r, 0 => x :: r
  | y :: r, S m => y :: set_nth m x r
  end.

(** construction.py:64-71 (with __init__ 22-26): creating a layer.  [None] is
    the NetworkValidationError. The name is given as an option; [name or
    layer_type] falls back for None only, because "" is not a valid name. *)
Definition create (layer_type : string) (name : option string) (w : world)
  : option world :=
  if negb (is_valid_layer_name layer_type) then None
  else
    match name with
    | Some n => if negb (is_valid_layer_name n) then None
                else Some (mkWorld
                   (w_layers w ++ [mkLayer n layer_type (length (w_layers w)) [] []])
                   (w_scopes w ++ [[(n, [length (w_layers w)])]]))
    | None => Some (mkWorld
                   (w_layers w ++ [mkLayer layer_type layer_type (length (w_layers w)) [] []])
                   (w_scopes w ++ [[(layer_type, [length (w_layers w)])]]))
    end.

(** sorted(set(a + b), key=creation_id) (construction.py:33-34): ids are the
    creation ids, so this is sorting naturals and removing duplicates. *)
Fixpoint insert_uniq (x : nat) (l : list nat) : list nat :=
  match l with
  | [] => [x]
  | y :: r => if x =? y then l
              else if x <? y then x :: l else y :: insert_uniq x r
  end.
Definition sorted_set (l : list nat) : list nat := fold_right insert_uniq [] l.

(** construction.py:30-34: the loop over other.scope.items() that updates the
    dictionary self.scope in place. *)
Definition merge_dicts (self other : dict (list nat)) : dict (list nat) :=
  fold_left
    (fun acc (item : string * list nat) =>
       let (name, scoped_names) := item in
       let cur := match dget name acc with Some l => l | None => [] end in
       dset name (sorted_set (cur ++ scoped_names)) acc)
    other self.

Definition set_scope (s : nat) (l : layer) : layer :=
  mkLayer (l_base l) (l_type l) s (l_out l) (l_in l).

(** construction.py:35-37: every layer mentioned in the new scope gets it. *)
Definition rescope (s : nat) (members : list nat) (ls : list layer) : list layer :=
  map (fun p : nat * layer =>
         if nmem (fst p) members then set_scope s (snd p) else snd p)
      (combine (seq 0 (length ls)) ls).

(** construction.py:28-37 merge_scopes *)
Definition merge_scopes (a b : nat) (w : world) : option world :=
  match nth_error (w_layers w) a, nth_error (w_layers w) b with
  | Some la, Some lb =>
      match nth_error (w_scopes w) (l_scope la), nth_error (w_scopes w) (l_scope lb) with
      | Some da, Some db =>
          let d := merge_dicts da db in
          Some (mkWorld (rescope (l_scope la) (flat_map snd d) (w_layers w))
                        (set_nth (l_scope la) d (w_scopes w)))
      | _, _ => None
      end
  | _, _ => None
  end.

Definition add_out (o : string * string * nat) (l : layer) : layer :=
  mkLayer (l_base l) (l_type l) (l_scope l) (l_out l ++ [o]) (l_in l).
Definition add_in (i : nat * string * string) (l : layer) : layer :=
  mkLayer (l_base l) (l_type l) (l_scope l) (l_out l) (l_in l ++ [i]).

Definition update_layer (n : nat) (f : layer -> layer) (w : world) : option world :=
  match nth_error (w_layers w) n with
  | Some l => Some (mkWorld (set_nth n (f l) (w_layers w)) (w_scopes w))
  | None => None
  end.

(** construction.py:148-156  (a - outp) >> (inp - b) *)
Definition wire (a : nat) (outp inp : string) (b : nat) (w : world) : option world :=
  match update_layer a (add_out (outp, inp, b)) w with
  | None => None
  | Some w1 =>
      match update_layer b (add_in (a, outp, inp)) w1 with
      | None => None
      | Some w2 => merge_scopes a b w2
      end
  end.

(** A program using the construction interface. *)
Inductive op :=
| Create (layer_type : string) (name : option string)
| Wire (a : nat) (outp inp : string) (b : nat).

Definition step (w : world) (o : op) : option world :=
  match o with
  | Create t n => create t n w
  | Wire a o i b => wire a o i b w
  end.

Fixpoint run (ops : list op) (w : world) : option world :=
  match ops with
  | [] => Some w
  | o :: r => match step w o with None => None | Some w' => run r w' end
  end.

(** construction.py:49-51, the while loop skipping names that are held by a
    single layer; [fuel] bounds the number of iterations, None is out of fuel. *)
Fixpoint skip_taken (fuel : nat) (d : dict (list nat)) (base : string) (i : nat)
  : option nat :=
  match fuel with
  | 0 => None
  | S f =>
      match dget (suffixed base i) d with
      | Some l => if length l =? 1 then skip_taken f d base (S i) else Some i
      | None => Some i
      end
  end.

(** construction.py:44-54, the for loop of the name property. *)
Fixpoint name_loop (d : dict (list nat)) (base : string) (uns : list nat)
  (i : nat) (self : nat) : option string :=
  match uns with
  | [] => None
  | un :: r =>
      match skip_taken (S (length d)) d base i with
      | None => None
      | Some j => if un =? self then Some (suffixed base j)
                  else name_loop d base r (S j) self
      end
  end.

(** construction.py:39-54  the name property *)
Definition layer_name (w : world) (a : nat) : option string :=
  match nth_error (w_layers w) a with
  | None => None
  | Some la =>
      match nth_error (w_scopes w) (l_scope la) with
      | None => None
      | Some d =>
          match dget (l_base la) d with
          | None => None
          | Some l => if length l =? 1 then Some (l_base la)
                      else name_loop d (l_base la) l 1 a
          end
      end
  end.

(** construction.py:104-107: layers adjacent to one of [ls]. *)
Definition neighbours (w : world) (a : nat) : list nat :=
  match nth_error (w_layers w) a with
  | None => []
  | Some l => map (fun o => snd o) (l_out l) ++ map (fun i => fst (fst i)) (l_in l)
  end.

(** construction.py:99-110 collect_connected_layers; sets as duplicate-free
    lists, the while loop with fuel (None = out of fuel). *)
Fixpoint collect_loop (fuel : nat) (w : world) (connectom new_layers : list nat)
  : option (list nat) :=
  match new_layers with
  | [] => Some connectom
  | _ =>
      match fuel with
      | 0 => None
      | S f =>
          let very_new := flat_map (neighbours w) new_layers in
          let connectom' := connectom ++ filter (fun x => negb (nmem x connectom)) new_layers in
          collect_loop f w connectom'
            (nodup Nat.eq_dec (filter (fun x => negb (nmem x connectom')) very_new))
      end
  end.
Definition collect_connected_layers (w : world) (a : nat) : option (list nat) :=
  collect_loop (S (length (w_layers w))) w [] [a].

(** architecture.py:21-36 get_layer_description, the part
    '@outgoing_connections' (a dict from output names to lists of strings). *)
Definition add_outgoing (w : world) (acc : option (dict (list string)))
  (o : string * string * nat) : option (dict (list string)) :=
  match acc with
  | None => None
  | Some d =>
      let '(outp, inp, b) := o in
      match layer_name w b with
      | None => None
      | Some nb =>
          let s := (nb ++ String "." inp)%string in
          match dget outp d with
          | Some l => Some (dset outp (l ++ [s]) d)
          | None => Some (dset outp [s] d)
          end
      end
  end.
Definition outgoing_description (w : world) (a : nat) : option (dict (list string)) :=
  match nth_error (w_layers w) a with
  | None => None
  | Some l => fold_left (add_outgoing w) (l_out l) (Some [])
  end.

(** An architecture: layer name -> (@type, @outgoing_connections). *)
Definition arch := dict (string * dict (list string)).

(** architecture.py:39-44 generate_architecture.  The iteration order over the
    set of layers is arbitrary in Python; [order] is the list of connected
    layers in the order in which they are iterated. *)
Definition add_desc (w : world) (acc : option arch) (a : nat) : option arch :=
  match acc, nth_error (w_layers w) a, layer_name w a, outgoing_description w a with
  | Some d, Some l, Some n, Some o => Some (dset n (l_type l, o) d)
  | _, _, _, _ => None
  end.
Definition generate_architecture_in (w : world) (order : list nat) : option arch :=
  fold_left (add_desc w) order (Some []).

(** architecture.py:16-18 *)
Record connection := mkCon {
  c_start : string; c_out : string; c_end : string; c_in : string
}.

(** architecture.py:47-49 and 64-68 *)
Definition parse_con (layer_name out_name con_str : string) : connection :=
  let (end_layer, input_name) := partition_dot con_str in
  mkCon layer_name out_name end_layer
        (if String.eqb input_name "" then "default" else input_name).

(** architecture.py:61-69 (dictionary form; generate_architecture always
    produces dictionaries). *)
Definition outgoing_connections (layer_name : string) (o : dict (list string))
  : list connection :=
  flat_map (fun item : string * list string =>
              map (parse_con layer_name (fst item)) (snd item)) o.

(** architecture.py:72-77 without the final sorted(): the connections as an
    unordered list (sorting is modelled in ArchModel.v). *)
Definition all_connections (ar : arch) : list connection :=
  flat_map (fun item : string * (string * dict (list string)) =>
              outgoing_connections (fst item) (snd (snd item))) ar.
