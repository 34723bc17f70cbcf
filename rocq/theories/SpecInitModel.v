(** Model of how create_net_from_spec initializes its network (brainstorm/tools.py:588-595, brainstorm/structure/network.py:242-274,
    brainstorm/initializers.py:31-35, 103-147, 179-192, 401-418).  No proofs. *)
From Coq Require Import String List Arith Bool Reals.
From Verif Require Import PyBase UtilsModel ViewRefsModel SaveModel.
Import ListNotations.
Open Scope string_scope.
Open Scope list_scope.
Open Scope nat_scope.

(** A layer: its name, its attribute activation if it has one, its parameter views with their shapes. *)
Record layer := mkLayer { l_name : string; l_act : option string; l_params : list (string * list nat) }.

(** network.py:244-246: layout.py:241-247 gives every layer a (possibly empty) view 'parameters'. *)
Definition all_parameters (layers : list layer) : views := map (fun l => (l_name l, l_params l)) layers.

(** The initializer objects: 0 is the default, 1 the fallback, 2 + i the DenseSqrtFanInOut of the i-th layer. *)
Inductive initializer := FanInOut (scale : string) | Gauss.
Definition object (layers : list layer) (i : nat) : initializer :=
  match i with
  | 0 | 1 => Gauss
  | S (S i) => match nth_error layers i with Some (mkLayer _ (Some a) _) => FanInOut a | _ => Gauss end
  end.

(** tools.py:588-591; no layer is called 'default' or 'fallback' (the later assignments would replace its entry). *)
Fixpoint init_entries (layers : list layer) (i : nat) : list (string * refs) :=
  match layers with
  | [] => []
  | l :: r => match l_act l with Some _ => (l_name l, DLeaf [i]) :: init_entries r (S i) | None => init_entries r (S i) end
  end.
(** tools.py:588-593 *)
Definition init_dict (layers : list layer) : refs :=
  DDict (init_entries layers 2 ++ [("default", DLeaf [0]); ("fallback", DLeaf [1])]).

(** What a view is filled with: scale / sqrt(n1 + n2) times uniform numbers (with the scale of an activation), or Gaussian noise. *)
Inductive source := Uniform_of (activation : string) | Noise.
Inductive ierr := ERefs (e : verror) | EMultiple | EMissing | EMultipleFallbacks | EInit | EKey.
Inductive ires (A : Type) := IOk (a : A) | IErr (e : ierr).
Arguments IOk {A} _.
Arguments IErr {A} _.

(** initializers.py:139-144: the table of the scales *)
Definition scales : list (string * R) :=
  [("rel", sqrt 12); ("tanh", sqrt 6); ("sigmoid", 4 * sqrt 6); ("linear", 1)]%R.
(** initializers.py:135-147 (without the values) and 191-192; _assert_atleast2d: 31-35 *)
Definition call (o : initializer) (sh : list nat) : ires source :=
  match o with
  | FanInOut a => if length sh <? 2 then IErr EInit
                  else match dget a scales with Some _ => IOk (Uniform_of a) | None => IErr EKey end
  | Gauss => IOk Noise
  end.
(** initializers.py:147: an entry of the result, for the number u of rnd.rand *)
Definition fan_value (scale : R) (n1 n2 : nat) (u : R) : R := (scale * (2 * u - 1) / sqrt (INR n1 + INR n2))%R.

(** initializers.py:401-418: the fallback is used after an InitializationError only. *)
Definition evaluate_with (o : initializer) (fb : option initializer) (sh : list nat) : ires source :=
  match call o sh with
  | IErr EInit => match fb with Some f => call f sh | None => IErr EInit end
  | r => r
  end.

Fixpoint imap {A B} (f : A -> ires B) (l : list A) : ires (list B) :=
  match l with
  | [] => IOk []
  | a :: r => match f a with
              | IErr e => IErr e
              | IOk b => match imap f r with IErr e => IErr e | IOk bs => IOk (b :: bs) end
              end
  end.

(** network.py:251-274 for one view; the sets are lists, their sizes count distinct elements. *)
Definition init_view (layers : list layer) (inits fbs : dtree (list nat)) (it : string * string * list nat) : ires (string * string * source) :=
  let '(n, v, sh) := it in
  match get_by_parts inits [n; v], get_by_parts fbs [n; v] with
  | Some (DLeaf l), Some (DLeaf f) =>
      match nodup Nat.eq_dec l, nodup Nat.eq_dec f with
      | _ :: _ :: _, _ => IErr EMultiple
      | [], _ => IErr EMissing
      | [_], _ :: _ :: _ => IErr EMultipleFallbacks
      | [i], fb =>
          match evaluate_with (object layers i) (match fb with j :: _ => Some (object layers j) | [] => None end) sh with
          | IOk s => IOk (n, v, s)
          | IErr e => IErr e
          end
      end
  | _, _ => IErr EMissing
  end.
(** All parameter views with their shapes.  Python sorts them by their names; here they keep the order of the layers (the order
    decides about the seeds, which are left out). *)
Definition all_views (layers : list layer) : list (string * string * list nat) :=
  flat_map (fun l => map (fun v => (l_name l, fst v, snd v)) (l_params l)) layers.
(** tools.py:588-595 and network.py:242-274 *)
Definition initialize_spec (layers : list layer) : ires (list (string * string * source)) :=
  match resolve_references (view_tree (all_parameters layers)) (init_dict layers) with
  | Err e => IErr (ERefs e)
  | Ok (inits, fbs) => imap (init_view layers inits fbs) (all_views layers)
  end.
