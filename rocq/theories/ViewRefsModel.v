(** Model of brainstorm/structure/view_references.py. *)
From Coq Require Import String Ascii List Arith Bool.
From Verif Require Import PyBase UtilsModel.
Import ListNotations.
Open Scope string_scope.
Open Scope list_scope.
Open Scope nat_scope.

(** Exceptions of this module. *)
Inductive verror :=
| ERefInvalid        (* AssertionError, view_references.py:21-22 *)
| ENoMatch           (* NetworkValidationError, 52-55 *)
| EUnhashable        (* TypeError: a dict is added to a set, 95 *)
| EDefaults.         (* AssertionError, 140 *)
Inductive res (A : Type) := Ok (a : A) | Err (e : verror).
Arguments Ok {A} _.
Arguments Err {A} _.

(** reference.replace('*', '_') *)
Fixpoint star_to_underscore (s : string) : string :=
  match s with
  | "" => ""
  | String c r => String (if Ascii.eqb c "*" then "_"%char else c) (star_to_underscore r)
  end.

(** view_references.py:13-24: is the reference accepted (otherwise the
    assertion of line 21 fails)? *)
Definition valid_reference (ref : string) : bool :=
  is_valid_layer_name ref || is_valid_layer_name (star_to_underscore ref).

(** view_references.py:13-24 together with expr.match(key) of line 51: the
    regular expression '^' + ref + '$' in which '*' stands for
    [_a-zA-Z0-9]*; '$' also matches before a final newline.  All other
    characters of an accepted reference match themselves. *)
Fixpoint ref_match (ref : string) : string -> bool :=
  match ref with
  | "" => fun key => String.eqb key "" || String.eqb key (String newline "")
  | String c r =>
      if Ascii.eqb c "*" then
        fix star (key : string) : bool :=
          ref_match r key ||
          match key with
          | "" => false
          | String d k => ident_char d && star k
          end
      else fun key =>
        match key with
        | "" => false
        | String d k => Ascii.eqb c d && ref_match r k
        end
  end.

(** 'default' and 'fallback', line 47 *)
Definition special (ref : string) : bool := String.eqb ref "default" || String.eqb ref "fallback".

(** view_references.py:46-58: errors of the loop over the references. *)
Fixpoint check_references (keys references : list string) : option verror :=
  match references with
  | [] => None
  | ref :: r =>
      if special ref then check_references keys r
      else if negb (valid_reference ref) then Some ERefInvalid
      else if existsb (ref_match ref) keys then check_references keys r
      else Some ENoMatch
  end.

(** view_references.py:44-63: the set of references of one key (duplicate
    references do not occur, they are dictionary keys). *)
Definition references_of (references : list string) (key : string) : list string :=
  match filter (fun ref => negb (special ref) && ref_match ref key) references with
  | [] => if smem "default" references then ["default"] else []
  | l => l
  end.

(** view_references.py:27-65 get_key_to_references_mapping *)
Definition get_key_to_references_mapping (keys references : list string)
  : res (dict (list string)) :=
  match check_references keys references with
  | Some e => Err e
  | None => Ok (map (fun key => (key, references_of references key)) keys)
  end.

(** view_references.py:68 Node; the sets contain objects (identified by a
    number). *)
Record vnode := mkNode { content : list nat; defaults : list nat; fallbacks : list nat }.

(** view_references.py:71-86 empty_dict_from; a structure is a nested dict. *)
Fixpoint empty_dict_from {V} (t : dtree V) : dtree vnode :=
  match t with
  | DLeaf _ => DLeaf (mkNode [] [] [])
  | DDict d => DDict (map (fun it => (fst it, empty_dict_from (snd it))) d)
  end.

(** References: nested dictionaries; a leaf holds the set of objects that
    add_or_update (89-95) adds for it: a set {a, b} is [a; b], a single
    object or a list/tuple (added as one tuple object) is a one-element list. *)
Definition refs := dtree (list nat).

Definition set_add (s : list nat) (v : list nat) : list nat :=
  s ++ filter (fun x => negb (nmem x s)) (nodup Nat.eq_dec v).

(** view_references.py:89-95 add_or_update; adding a dict to a set is a
    TypeError. *)
Definition add_or_update (s : list nat) (v : refs) : res (list nat) :=
  match v with
  | DLeaf l => Ok (set_add s l)
  | DDict _ => Err EUnhashable
  end.
Definition add_opt (s : list nat) (v : option refs) : res (list nat) :=
  match v with None => Ok s | Some v => add_or_update s v end.

(** A loop that stops at the first exception. *)
Definition map_res {A B} (f : A -> res B) : list A -> res (list B) :=
  fix go l :=
    match l with
    | [] => Ok []
    | a :: r => match f a with
                | Err e => Err e
                | Ok b => match go r with Err e => Err e | Ok bs => Ok (b :: bs) end
                end
    end.

(** view_references.py:107-112 *)
Definition update_node (n : vnode) (c : refs) (d f : option refs) : res vnode :=
  match add_or_update (content n) c, add_opt (defaults n) d, add_opt (fallbacks n) f with
  | Ok c', Ok d', Ok f' => Ok (mkNode c' d' f')
  | Err e, _, _ => Err e
  | _, Err e, _ => Err e
  | _, _, Err e => Err e
  end.

(** view_references.py:98-112 append_to_all_leaves *)
Fixpoint append_to_all_leaves (t : dtree vnode) (c : refs) (d f : option refs)
  : res (dtree vnode) :=
  match t with
  | DLeaf n => match update_node n c d f with Ok n' => Ok (DLeaf n') | Err e => Err e end
  | DDict items =>
      match map_res (fun it : string * dtree vnode =>
                       match append_to_all_leaves (snd it) c d f with
                       | Ok t' => Ok (fst it, t')
                       | Err e => Err e
                       end) items with
      | Ok items' => Ok (DDict items')
      | Err e => Err e
      end
  end.

(** view_references.py:115-131 apply_references_recursively.  The references
    of a key are a set in Python and are processed in arbitrary order; here
    in the order of the dictionary (the theorems describe the result as sets,
    independent of that order). *)
Fixpoint apply_refs (R : refs) (t : dtree vnode) (pd pf : option refs) {struct R}
  : res (dtree vnode) :=
  match R with
  | DLeaf _ => append_to_all_leaves t R pd pf
  | DDict d =>
      match t with
      | DLeaf _ => append_to_all_leaves t R pd pf
      | DDict items =>
          let cd := match dget "default" d with Some x => Some x | None => pd end in
          let cf := match dget "fallback" d with Some x => Some x | None => pf end in
          match check_references (dkeys items) (dkeys d) with
          | Some e => Err e
          | None =>
              match map_res (fun it : string * dtree vnode =>
                let rs := references_of (dkeys d) (fst it) in
                match
                  match rs with
                  | [] => append_to_all_leaves (snd it) (DLeaf []) cd cf
                  | _ =>
                      (fix go (d0 : list (string * refs)) (acc : dtree vnode) {struct d0} :=
                         match d0 with
                         | [] => Ok acc
                         | (ref, R') :: r =>
                             if smem ref rs then
                               match apply_refs R' acc cd cf with
                               | Ok acc' => go r acc'
                               | Err e => Err e
                               end
                             else go r acc
                         end) d (snd it)
                  end
                with
                | Ok t' => Ok (fst it, t')
                | Err e => Err e
                end) items with
              | Ok items' => Ok (DDict items')
              | Err e => Err e
              end
          end
      end
  end.

(** view_references.py:134-143 evaluate_defaults *)
Fixpoint evaluate_defaults (t : dtree vnode) : res (dtree (list nat)) :=
  match t with
  | DLeaf n =>
      match content n with
      | [] => if length (defaults n) <=? 1 then Ok (DLeaf (defaults n)) else Err EDefaults
      | c => Ok (DLeaf c)
      end
  | DDict items =>
      match map_res (fun it : string * dtree vnode =>
                       match evaluate_defaults (snd it) with
                       | Ok t' => Ok (fst it, t')
                       | Err e => Err e
                       end) items with
      | Ok items' => Ok (DDict items')
      | Err e => Err e
      end
  end.

(** view_references.py:146-151 get_fallbacks *)
Fixpoint get_fallbacks (t : dtree vnode) : dtree (list nat) :=
  match t with
  | DLeaf n => DLeaf (fallbacks n)
  | DDict items => DDict (map (fun it => (fst it, get_fallbacks (snd it))) items)
  end.

(** view_references.py:154-157 resolve_references *)
Definition resolve_references {V} (structure : dtree V) (references : refs)
  : res (dtree (list nat) * dtree (list nat)) :=
  match apply_refs references (empty_dict_from structure) None None with
  | Err e => Err e
  | Ok t => match evaluate_defaults t with
            | Err e => Err e
            | Ok r => Ok (r, get_fallbacks t)
            end
  end.

(** view_references.py:160-173 prune_view_references: entries with an empty
    set and layers without remaining entries are removed (a resolved tree has
    two levels: layer -> view -> set; [views is None] does not occur for a
    resolved tree). *)
Definition prune_view_references (r : list (string * list (string * list nat)))
  : list (string * list (string * list nat)) :=
  filter (fun it => match snd it with [] => false | _ => true end)
    (map (fun it => (fst it, filter (fun v => match snd v with [] => false | _ => true end) (snd it))) r).
