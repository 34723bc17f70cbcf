(** Model of brainstorm/structure/buffer_views.py and of
    create_buffer_views_from_layout (structure/buffers.py:14-44): BufferView
    objects on a heap, with their identity, their list and their attributes. *)
From Coq Require Import String Ascii List Arith Bool.
From Verif Require Import PyBase UtilsModel HubModel LayoutModel BuffersModel.
Import ListNotations.
Open Scope string_scope.
Open Scope list_scope.
Open Scope nat_scope.

(** EUnmodelled: what happens is not represented (a view takes the place of
    _keys or _buffer_names, or an array that of a view). *)
Inductive verr := EKey | EType | EAttribute | EAssertion | EValue | EIndex | EUnmodelled.
Inductive vres (X : Type) := VOk (x : X) | VErr (e : verr).
Arguments VOk {X} x.
Arguments VErr {X} e.
Definition vbind {X Y} (r : vres X) (f : X -> vres Y) : vres Y := match r with VOk x => f x | VErr e => VErr e end.
Notation "'try' x <- r ; s" := (vbind r (fun x => s)) (at level 200, x pattern, r at level 100, s at level 200).
Definition vguard (b : bool) (e : verr) : vres unit := if b then VOk tt else VErr e.

Section Views.
  Variable A : Type.   (* arrays *)

  (** ** Objects *)
  (** An array or a reference to a view *)
  Inductive value := VArr (a : A) | VRef (p : nat).
  (** What an attribute may be: None, a tuple or set of names, a value *)
  Inductive attr := ANone | ANames (l : list string) | AVal (v : value).
  (** The elements of the list and the __dict__ of the instance *)
  Record obj := mkObj { o_list : list value; o_attrs : dict attr }.
  Definition heap := list obj.
  Definition set_obj (p : nat) (o : obj) (h : heap) : heap := firstn p h ++ o :: skipn (S p) h.
  Definition at_ref (h : heap) (v : value) : vres (nat * obj) :=
    match v with
    | VRef p => match nth_error h p with Some o => VOk (p, o) | None => VErr EUnmodelled end
    | VArr _ => VErr EUnmodelled
    end.
  Definition full_attr (full : option A) : attr := match full with Some a => AVal (VArr a) | None => ANone end.
  (** for i, n in enumerate(names): self.__dict__[n] = self[i] *)
  Definition set_children (names : list string) (bufs : list value) (attrs : dict attr) : dict attr :=
    fold_left (fun d e => dset (fst e) (AVal (snd e)) d) (combine names bufs) attrs.
  Fixpoint distinct_names (l : list string) : list string :=
    match l with [] => [] | n :: r => if smem n r then distinct_names r else n :: distinct_names r end.

  (** buffer_views.py:9-18 __init__ *)
  Definition new_view (names : list string) (bufs : list value) (full : option A) (h : heap) : vres (heap * value) :=
    if length bufs =? length names
    then VOk (h ++ [mkObj bufs (set_children names bufs [("_full_buffer", full_attr full);
                                                        ("_buffer_names", ANames names);
                                                        ("_keys", ANames (distinct_names names))])],
              VRef (length h))
    else VErr EValue.
  (** self._buffer_names, self._keys: the attributes of the instance *)
  Definition names_attr (attr_name : string) (o : obj) : vres (list string) :=
    match dget attr_name (o_attrs o) with Some (ANames l) => VOk l | _ => VErr EUnmodelled end.
  (** view.method: a function of the class is found only if the instance has
      no attribute of this name; calling an array or a view is a TypeError *)
  Definition method (name : string) (o : obj) : vres unit :=
    match dget name (o_attrs o) with None => VOk tt | Some _ => VErr EType end.
  (** buffer_views.py:20-26 adjust *)
  Definition adjust (p : nat) (names : list string) (bufs : list value) (full : option A) (h : heap) : vres (heap * value) :=
    try (p, o) <- at_ref h (VRef p);
    try _ <- method "adjust" o;
    try old <- names_attr "_buffer_names" o;
    try _ <- vguard (if list_eq_dec string_dec old names then true else false) EAssertion;
    try _ <- vguard (length bufs <=? length (o_list o)) EIndex;
    VOk (set_obj p (mkObj (bufs ++ skipn (length bufs) (o_list o))
                          (set_children names bufs (dset "_full_buffer" (full_attr full) (o_attrs o)))) h, VRef p).

  (** ** Access *)
  (** buffer_views.py:51-52 __contains__ *)
  Definition contains (h : heap) (v : value) (item : string) : vres bool :=
    try (_, o) <- at_ref h v;
    try names <- names_attr "_buffer_names" o;
    VOk (smem item names).
  (** buffer_views.py:41-42: view[i] *)
  Definition get_index (h : heap) (v : value) (i : nat) : vres value :=
    try (_, o) <- at_ref h v;
    match nth_error (o_list o) i with Some x => VOk x | None => VErr EIndex end.
  (** buffer_views.py:43-44, 48: view[item] for an item without dots *)
  Definition get_key (h : heap) (v : value) (item : string) : vres value :=
    try (_, o) <- at_ref h v;
    try keys <- names_attr "_keys" o;
    if smem item keys
    then match dget item (o_attrs o) with Some (AVal x) => VOk x | Some _ => VErr EUnmodelled | None => VErr EKey end
    else VErr EKey.
  Fixpoint walk {X} (step : value -> X -> vres value) (v : value) (path : list X) : vres value :=
    match path with [] => VOk v | x :: r => try w <- step v x; walk step w r end.
  Definition has_dot (s : string) : bool := existsb (Ascii.eqb ".") (list_ascii_of_string s).
  (** buffer_views.py:40-49 __getitem__ for a string, with utils.py:103-129
      get_by_path for a dotted one *)
  Definition get_item (h : heap) (v : value) (item : string) : vres value :=
    try (_, o) <- at_ref h v;
    try keys <- names_attr "_keys" o;
    if smem item keys then get_key h v item
    else if has_dot item then walk (get_key h) v (split_dot item)
    else VErr EKey.
  (** view.name; the names of attributes that are always found in the class
      first *)
  Definition class_first : list string := ["__class__"; "__dict__"; "__weakref__"].
  Definition get_attr (h : heap) (v : value) (name : string) : vres value :=
    try (_, o) <- at_ref h v;
    if smem name class_first then VErr EUnmodelled
    else match dget name (o_attrs o) with Some (AVal x) => VOk x | Some _ => VErr EUnmodelled | None => VErr EAttribute end.
  (** buffer_views.py:28-32 items and _asdict: dict(zip(names, self)) *)
  Definition items (h : heap) (v : value) : vres (dict value) :=
    try (_, o) <- at_ref h v;
    try _ <- method "items" o;
    try _ <- method "_asdict" o;
    try names <- names_attr "_buffer_names" o;
    VOk (fold_left (fun d e => dset (fst e) (snd e) d) (combine names (o_list o)) []).
  (** if view: a list is true if it is not empty *)
  Definition truthy (h : heap) (v : value) : vres bool :=
    try (_, o) <- at_ref h v;
    VOk (match o_list o with [] => false | _ => true end).

  (** ** Views from a layout *)
  (** A layout: an array (made from its slice of a hub, buffers.py:15-22), or a
      view with its own array (if the layout has a slice) and its children in
      the order of their '@index'. *)
  Inductive ltree := LArr (a : A) | LView (full : option A) (children : list (string * ltree)).
  (** buffers.py:14-44 create_buffer_views_from_layout; [ex] is existing_view.
      Its truth value is determined once: creating the children does not change
      the length of its list. *)
  Fixpoint create (t : ltree) (ex : option value) (h : heap) {struct t} : vres (heap * value) :=
    match t with
    | LArr a => VOk (h, VArr a)
    | LView full children =>
        try old <- match ex with
                   | None => VOk None
                   | Some v => try b <- truthy h v; VOk (if b then Some v else None)
                   end;
        try (h1, names, bufs) <-
          (fix loop (cs : list (string * ltree)) (names : list string) (bufs : list value) (h : heap)
             : vres (heap * list string * list value) :=
             match cs with
             | [] => VOk (h, names, bufs)
             | (n, sub) :: r =>
                 if String.prefix "@" n then loop r names bufs h
                 else
                   try exn <- match old with
                              | None => VOk None
                              | Some v =>
                                  try b <- contains h v n;
                                  try _ <- vguard b EAssertion;
                                  try w <- get_item h v n;
                                  VOk (Some w)
                              end;
                   try (h', c) <- create sub exn h;
                   loop r (names ++ [n]) (bufs ++ [c]) h'
             end) children [] [] h;
        match old with
        | Some (VRef p) => adjust p names bufs full h1
        | Some (VArr _) => VErr EUnmodelled
        | None => new_view names bufs full h1
        end
    end.
  (** buffers.py:69-96 resize as far as the views are concerned: the layout
      with the arrays for the new sizes.  The parameters are taken from and
      written to views.parameters (buffers.py:88, 94), which must be an array
      (numpy_handler.py:60-65). *)
  Definition resize_views (t : ltree) (views : option value) (h : heap) : vres (heap * value) :=
    try _ <- match views with
             | None => VOk tt
             | Some v => try w <- get_attr h v "parameters"; match w with VArr _ => VOk tt | VRef _ => VErr EAssertion end
             end;
    try (h', w) <- create t views h;
    try _ <- match views with
             | None => VOk tt
             | Some _ => try x <- get_attr h' w "parameters"; match x with VArr _ => VOk tt | VRef _ => VErr EAttribute end
             end;
    VOk (h', w).
  Fixpoint resizes (ts : list ltree) (views : option value) (h : heap) : vres (heap * option value) :=
    match ts with
    | [] => VOk (h, views)
    | t :: r => try (h', w) <- resize_views t views h; resizes r (Some w) h'
    end.
End Views.
Arguments VArr {A} a.
Arguments VRef {A} p.
Arguments ANone {A}.
Arguments ANames {A} l.
Arguments AVal {A} v.
Arguments LArr {A} a.
Arguments LView {A} full children.
Arguments mkObj {A} _ _.
Arguments o_list {A} o.
Arguments o_attrs {A} o.

(** ** The layout of a network *)
(** layout.py:208-283 create_layout_stub and get_layout_stub_for_layer with the
    arrays of buffers.py:15-22 for time size T and batch size B (None: the
    ValueError of a reshape).  A layer called 'parameters' or 'gradients'
    takes the place of the root entry (dset). *)
Definition category_tree (arrays : string -> option arr) (l : layer) (category : string)
  (entries : list (string * lstruct)) : string * ltree (option arr) :=
  (category, LView None (map (fun e => (fst e, LArr (arrays (path3 (l_name l) category (fst e))))) entries)).
Definition layer_tree (arrays : string -> option arr) (l : layer) : ltree (option arr) :=
  LView None
    [category_tree arrays l "inputs" (sorted_entries (l_in l));
     category_tree arrays l "outputs" (l_out l);
     category_tree arrays l "parameters" (l_params l);
     category_tree arrays l "internals" (l_int l);
     category_tree arrays l "input_deltas" (sorted_entries (l_in l));
     category_tree arrays l "output_deltas" (l_out l);
     category_tree arrays l "gradients" (l_params l)].
Definition net_tree (arrays : string -> option arr) (layers : list layer) : ltree (option arr) :=
  LView None
    (fold_left (fun d l => dset (l_name l) (layer_tree arrays l) d) layers
       [("parameters", LArr (arrays "parameters")); ("gradients", LArr (arrays "gradients"))]).
Definition layout_tree (layers : list layer) (hubs : list hub) (lay : slices) (T B : nat) : ltree (option arr) :=
  net_tree (array_view layers hubs lay T B) layers.
