(** Model of initialising, saving and loading a network
    (brainstorm/structure/network.py, brainstorm/initializers.py). *)
From Coq Require Import String List Arith Bool ZArith QArith.
From Verif Require Import PyBase UtilsModel ViewRefsModel DescribeModel.
Import ListNotations.
Open Scope string_scope.
Open Scope list_scope.
Open Scope nat_scope.

(** ** Does an initializer work for a shape? *)
(** A result, an InitializationError, or any other exception. *)
Inductive outcome := Done | InitErr | Crash.
Definition check (b : bool) (o : outcome) : outcome := if b then o else InitErr.
Definition need (b : bool) : outcome := if b then Done else Crash.
Definition andthen (a b : outcome) : outcome := match a with Done => b | _ => a end.

(** isinstance(x, (int, float)) (initializers.py:413) *)
Definition is_number (v : value) : bool :=
  match v with VBool _ => true | VInt _ => true | VFloat _ => true | _ => false end.
(** bool(x); simplification: an array counts like the list of its rows. *)
Definition truthy (v : value) : bool :=
  match v with
  | VNone => false
  | VBool b => b
  | VInt z => negb (Z.eqb z 0)
  | VFloat (Fin q) => negb (Qeq_bool q 0)
  | VStr s => negb (String.eqb s "")
  | VList l => negb (length l =? 0)
  | VTuple l => negb (length l =? 0)
  | VArr l => negb (length l =? 0)
  | VDict d => negb (length d =? 0)
  | _ => true
  end.
(** np.array(x).shape for nested lists; simplification: they are rectangular. *)
Fixpoint jshape (j : json) : list nat :=
  match j with JList l => length l :: match l with [] => [] | a :: _ => jshape a end | _ => [] end.
Fixpoint vshape (v : value) : list nat :=
  match v with
  | VList l => length l :: match l with [] => [] | a :: _ => vshape a end
  | VArr l => length l :: match l with [] => [] | a :: _ => jshape a end
  | _ => []
  end.
Definition shape_eqb (a b : list nat) : bool := if list_eq_dec Nat.eq_dec a b then true else false.
Definition square (sh : list nat) : bool := match sh with a :: b :: _ => a =? b | _ => false end.

(** Attributes of an object: a random state, a number, one of some strings. *)
Definition has_rnd (m : dict value) : bool := match dget "rnd" m with Some (VOpaque _) => true | _ => false end.
Definition has_number (x : string) (m : dict value) : bool := match dget x m with Some v => is_number v | None => false end.
Definition has_scale (l : list string) (x : string) (m : dict value) : bool :=
  match dget x m with Some (VStr s) => smem s l | Some v => is_number v | None => false end.

(** The __call__ of the initializers (initializers.py:48-53, 88-100, 135-147,
    167-176, 191-192, 206-216, 235-252, 267-274, 295-312, 331-343, 361-372,
    394-396).  [sub] evaluates an attribute.  Simplification: no dimension of
    the shape is zero. *)
Definition call (c : string) (m : dict value) (sub : dict (bool -> list nat -> outcome)) (sh : list nat) : outcome :=
  let dim := length sh in
  let eval x b sh := match dget x sub with Some f => f b sh | None => Crash end in
  if String.eqb c "ArrayInitializer" then
    match dget "array" m with
    | Some (VArr l) => check (shape_eqb (vshape (VArr l)) sh) Done
    | Some (VList l) => check (shape_eqb (vshape (VList l)) sh) Done
    | _ => Crash
    end
  else if String.eqb c "DenseSqrtFanIn" || String.eqb c "DenseSqrtFanInOut" then
    check (2 <=? dim) (need (has_scale ["rel"; "tanh"; "sigmoid"; "linear"] "scale" m && has_rnd m))
  else if String.eqb c "EchoState" then
    check (2 <=? dim) (check (square sh) (need ((dim =? 2) && has_number "spectral_radius" m && has_rnd m)))
  else if String.eqb c "Gaussian" then need (has_number "std" m && has_number "mean" m && has_rnd m)
  else if String.eqb c "Identity" then
    check (dim =? 2)
      match dget "enforce_square" m with
      | None => Crash
      | Some e => check (negb (truthy e) || square sh) (need (has_number "scale" m && has_number "std" m && has_rnd m))
      end
  else if String.eqb c "LstmOptInit" then
    match sh with
    | [] => Crash
    | n :: r =>
        check (n mod 4 =? 0)
          (if has_rnd m then
             andthen (eval "block_input" true (n / 4 :: r))
               (andthen (eval "input_gate" true (n / 4 :: r))
                  (andthen (eval "forget_gate" true (n / 4 :: r)) (eval "output_gate" true (n / 4 :: r))))
           else Crash)
    end
  else if String.eqb c "Orthogonal" then check (dim =? 2) (need (has_number "scale" m && has_rnd m))
  else if String.eqb c "RandomWalk" then
    check (dim =? 2) (check (square sh)
      match dget "scale" m with
      | Some VNone => need (match dget "act_func" m with Some (VStr s) => smem s ["linear"; "rel"] | _ => false end && has_rnd m)
      | Some v => need (is_number v && has_rnd m)
      | None => Crash
      end)
  else if String.eqb c "SparseInputs" then
    check (2 <=? dim)
      match dget "connections" m with
      | Some (VInt k) => check (Z.leb k (Z.of_nat (nth 0 sh 0))) (andthen (eval "sub_initializer" false sh) (need (has_rnd m)))
      | _ => Crash
      end
  else if String.eqb c "SparseOutputs" then
    check (2 <=? dim)
      match dget "connections" m with
      | Some (VInt k) => check (Z.leb k (Z.of_nat (nth 1 sh 0))) (andthen (eval "sub_initializer" false sh) (need (has_rnd m)))
      | _ => Crash
      end
  else if String.eqb c "Uniform" then need (has_number "low" m && has_number "high" m && has_rnd m)
  else Crash.

(** initializers.py:401-419 evaluate_initializer without fallback; [seeded]: is a
    seed given? *)
Fixpoint evaluate (v : value) (seeded : bool) (sh : list nat) {struct v} : outcome :=
  match v with
  | VBool _ => Done
  | VInt _ => Done
  | VFloat _ => Done
  | VObj c m =>
      if seeded && negb (has_rnd m) then Crash
      else call c m (map (fun it => (fst it, evaluate (snd it))) m) sh
  | _ => Crash
  end.
(** ... with fallback *)
Definition evaluate_initializer (v : value) (fallback : option value) (sh : list nat) : outcome :=
  match evaluate v true sh, fallback with
  | InitErr, Some f => evaluate f true sh
  | o, _ => o
  end.

(** ** References *)
(** A nested dict of references whose leaves are Python objects: the identity and
    the value. *)
Definition irefs := dtree (nat * value).
Fixpoint tmap {A B} (f : A -> B) (t : dtree A) : dtree B :=
  match t with
  | DLeaf a => DLeaf (f a)
  | DDict d => DDict (map (fun it => (fst it, tmap f (snd it))) d)
  end.
Fixpoint leaves {A} (t : dtree A) : list A :=
  match t with
  | DLeaf a => [a]
  | DDict d => flat_map (fun it => leaves (snd it)) d
  end.
(** The leaves numbered from [n] on. *)
Fixpoint number {A} (t : dtree A) (n : nat) : dtree (nat * A) :=
  match t with
  | DLeaf a => DLeaf (n, a)
  | DDict d =>
      DDict ((fix go (d : list (string * dtree A)) (n : nat) : list (string * dtree (nat * A)) :=
                match d with
                | [] => []
                | (k, t) :: r => (k, number t n) :: go r (n + length (leaves t))
                end) d n)
  end.
(** network.py:561-566 _replace_lists_with_array_initializers *)
Definition replace_lists (v : value) : value :=
  match v with
  | VList l => VObj "ArrayInitializer" [("rnd", VOpaque 0); ("array", VList l)]
  | VArr l => VObj "ArrayInitializer" [("rnd", VOpaque 0); ("array", VArr l)]
  | _ => v
  end.
(** Are two leaves the same element of a set?  Lists have become separate
    ArrayInitializers; objects are compared by identity, numbers by value. *)
Definition same_initializer (a b : nat * value) : bool :=
  match snd a, snd b with
  | VList _, _ => false
  | VArr _, _ => false
  | _, VList _ => false
  | _, VArr _ => false
  | v, w => (fst a =? fst b) || pyeq v w
  end.
(** Modifiers (and lists of them, which become tuples); simplification: two equal
    lists with different identities do not occur. *)
Definition same_modifier (a b : nat * value) : bool := fst a =? fst b.
(** The number of the first leaf which is the same as the k-th one. *)
Definition label (same : nat * value -> nat * value -> bool) (l : list (nat * value)) (k : nat) : nat :=
  match find (fun j => match nth_error l j, nth_error l k with Some a, Some b => same a b | _, _ => false end) (seq 0 k) with
  | Some j => j
  | None => k
  end.
Definition labelled (same : nat * value -> nat * value -> bool) (t : irefs) : refs :=
  tmap (fun it => [label same (leaves t) (fst it)]) (number t 0).
Definition leaf_value (t : irefs) (k : nat) : value := match nth_error (leaves t) k with Some it => snd it | None => VNone end.

(** The parameter views: layer, view and shape. *)
Definition views := list (string * list (string * list nat)).
Definition view_tree (s : views) : dtree (list nat) :=
  DDict (map (fun it => (fst it, DDict (map (fun v => (fst v, DLeaf (snd v))) (snd it)))) s).

(** network.py:242-274 Network.initialize: does it succeed? *)
Definition initialize (s : views) (t : irefs) : bool :=
  match resolve_references (view_tree s) (labelled same_initializer t) with
  | Err _ => false
  | Ok (initializers, fallback) =>
      forallb (fun layer => forallb (fun view =>
        match get_by_parts initializers [fst layer; fst view], get_by_parts fallback [fst layer; fst view] with
        | Some (DLeaf [i]), Some (DLeaf fb) =>
            match fb with
            | [] => match evaluate_initializer (replace_lists (leaf_value t i)) None (snd view) with Done => true | _ => false end
            | [f] => match evaluate_initializer (replace_lists (leaf_value t i)) (Some (replace_lists (leaf_value t f))) (snd view) with Done => true | _ => false end
            | _ => false
            end
        | _, _ => false
        end) (snd layer)) s
  end.

(** ** Modifiers *)
Definition modifiers := list (string * list (string * list value)).
(** view_references.py:176-180 copy_modifier_for *)
Definition copy_modifier_for (v : value) (layer view : string) : option value :=
  match v with
  | VObj c m => Some (VObj c (dset "view_name" (VStr view) (dset "layer_name" (VStr layer) m)))
  | _ => None
  end.
(** A resolved tree as a dict of dicts. *)
Definition two_levels (r : dtree (list nat)) : list (string * list (string * list nat)) :=
  match r with
  | DLeaf _ => []
  | DDict d => map (fun it => (fst it, match snd it with
                                       | DLeaf _ => []
                                       | DDict vs => map (fun v => (fst v, match snd v with DLeaf l => l | DDict _ => [] end)) vs
                                       end)) d
  end.
(** view_references.py:187-192 *)
Definition modifiers_of (v : value) : list value := match v with VList l => l | VTuple l => l | _ => [v] end.
(** view_references.py:183-197 order_and_copy_modifiers; sets are traversed in the
    order of insertion. *)
Definition order_and_copy (t : irefs) (r : list (string * list (string * list nat))) : option modifiers :=
  map_opt (fun layer => option_map (pair (fst layer))
    (map_opt (fun view => option_map (pair (fst view))
      (map_opt (fun v => copy_modifier_for v (fst layer) (fst view)) (flat_map (fun i => modifiers_of (leaf_value t i)) (snd view))))
      (snd layer))) r.
(** network.py:302-315, 343-356 set_weight_modifiers, set_gradient_modifiers *)
Definition set_modifiers (s : views) (t : irefs) : option modifiers :=
  match resolve_references (view_tree s) (labelled same_modifier t) with
  | Err _ => None
  | Ok (mods, fallback) =>
      match prune_view_references (two_levels fallback) with
      | [] => order_and_copy t (prune_view_references (two_levels mods))
      | _ => None
      end
  end.

(** Does a call of a modifier succeed (network.py:490-511, value_modifiers.py)?
    FreezeValues and MaskValues take the shape of an array; all others need
    numbers. *)
Definition is_array (v : option value) : bool := match v with Some (VArr _) => true | Some (VOpaque _) => true | _ => false end.
Definition is_none (v : option value) : bool := match v with Some VNone => true | _ => false end.
Definition applicable (v : value) : bool :=
  match v with
  | VObj c m =>
      has_rnd m &&
      (if String.eqb c "MaskValues" then is_array (dget "device_mask" m) || (is_none (dget "device_mask" m) && is_array (dget "mask" m))
       else if String.eqb c "FreezeValues" then is_array (dget "device_weights" m) || (is_none (dget "device_weights" m) && (is_none (dget "weights" m) || is_array (dget "weights" m)))
       else if String.eqb c "ConstrainL2Norm" then has_number "limit" m
       else if String.eqb c "ClipValues" then has_number "low" m && has_number "high" m
       else if String.eqb c "L1Decay" then has_number "factor" m
       else if String.eqb c "L2Decay" then has_number "factor" m
       else false)
  | _ => false
  end.

(** ** Descriptions of references and networks *)
(** get_description(init_refs), describable.py:160-201 *)
Fixpoint describe_refs (t : irefs) : option json :=
  match t with
  | DLeaf it => get_description library (snd it)
  | DDict d => option_map JDict (map_opt (fun it => option_map (pair (fst it)) (describe_refs (snd it))) d)
  end.
(** create_from_description, describable.py:204-235: a dict with '@type' is an
    object, i.e. a leaf. *)
Fixpoint create_refs (j : json) : option (dtree value) :=
  match j with
  | JDict d =>
      if dmem "@type" d then option_map DLeaf (create_from_description library j)
      else option_map DDict (map_opt (fun it => option_map (pair (fst it)) (create_refs (snd it))) d)
  | _ => option_map DLeaf (create_from_description library j)
  end.
(** Every recreated leaf is a new object. *)
Definition recreate (j : json) : option irefs := option_map (fun t => number t 0) (create_refs j).
Definition describe_modifiers (mods : modifiers) : option json :=
  get_description library (VDict (map (fun layer => (fst layer, VDict (map (fun view => (fst view, VList (snd view))) (snd layer)))) mods)).

(** A network; the handler and what is derived from the architecture are left out. *)
Record network := mkNet {
  architecture : json;
  initializers : json;
  weight_modifiers : modifiers;
  gradient_modifiers : modifiers;
  output_name : json;
  parameters : list pyfloat
}.
(** The file: the entries of the description and the parameters. *)
Record file := mkFile {
  f_architecture : json; f_initializers : json; f_weight_modifiers : json; f_gradient_modifiers : json; f_output_name : json;
  f_parameters : list pyfloat
}.
Definition size (s : views) : nat :=
  list_sum (map (fun layer => list_sum (map (fun view => fold_right Nat.mul 1 (snd view)) (snd layer))) s).

Section Files.
  (** Network.from_architecture (network.py:47-68): the parameter views of a new
      network, or an exception ([None]). *)
  Variable views_of : json -> option views.

  (** network.py:104-117 *)
  Definition from_architecture (a : json) : option network :=
    option_map (fun s => mkNet a (JDict []) [] [] JNone (repeat (Fin 0) (size s))) (views_of a).

  (** network.py:513-536 save_as_hdf5; [None]: an exception. *)
  Definition save_as_hdf5 (n : network) : option file :=
    match describe_modifiers (weight_modifiers n), describe_modifiers (gradient_modifiers n) with
    | Some w, Some g => Some (mkFile (architecture n) (initializers n) w g (output_name n) (parameters n))
    | _, _ => None
    end.

  (** network.py:70-79, 81-102 from_hdf5.  The values given by the initializers are
      overwritten by the parameters of the file. *)
  Definition from_hdf5 (f : file) : option network :=
    match views_of (f_architecture f), recreate (f_initializers f), recreate (f_gradient_modifiers f), recreate (f_weight_modifiers f) with
    | Some s, Some i, Some g, Some w =>
        if initialize s i then
          match describe_refs i, set_modifiers s g, set_modifiers s w with
          | Some d, Some gm, Some wm =>
              if length (f_parameters f) =? size s then Some (mkNet (f_architecture f) d wm gm (f_output_name f) (f_parameters f)) else None
          | _, _, _ => None
          end
        else None
    | _, _, _, _ => None
    end.
End Files.
