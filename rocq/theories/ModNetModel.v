(** The modifiers of a network on its memory (network.py:490-511) and the training with modifiers
    (trainer.py:97-101). *)
From Coq Require Import String List Reals Arith Bool.
From Verif Require Import NumBase NumpyModel NetworkModel NetLayersModel MemoryPassModel HubModel LayoutModel BuffersModel.
From Verif Require Import UtilsModel ShapesModel SetupModel NetLayoutProps CellsProofs NetMemoryModel SchedulesModel TrainNetModel ModifiersModel.
Import ListNotations.
Open Scope string_scope.
Open Scope list_scope.
Open Scope nat_scope.

(** The value modifiers (value_modifiers.py:50-178), FreezeValues with its state; a mask and given
    weights have the shape of the view and are listed in row-major order. *)
Inductive vmod := VClip (low high : R) | VConstrain (limit : R) | VMask (mask : vec) | VFreeze (f : freeze).
(** Modifiers of gradients (network.py:498-511): value modifiers, L1Decay, L2Decay *)
Inductive gmod := GValue (x : vmod) | GL1 (factor : R) | GL2 (factor : R).

(** A call of a value modifier for a view of the given shape, whose elements in row-major order are
    [v]: the modifier and the elements afterwards.  The handler is the same in all calls. *)
Definition modify (fmax : R) (shape : list nat) (x : vmod) (v : vec) : vmod * vec :=
  let elements := cut (prod shape) in
  match x with
  | VClip low high => (x, elements (clip_values low high v))
  | VConstrain limit =>
      let cols := prod shape / hd 0 shape in
      (x, elements (fun j => constrain_l2 fmax limit (length shape) cols (mat_of cols v) (j / cols) (j mod cols)))
  | VMask mask => (x, elements (mask_values mask v))
  | VFreeze f => let '(f', w) := freeze_call f false v in (VFreeze f', elements w)
  end.
(** A call of a modifier of gradients (network.py:503-511): L1Decay and L2Decay get the parameters too. *)
Definition modify_gradient (fmax : R) (shape : list nat) (params : vec) (x : gmod) (v : vec) : gmod * vec :=
  let elements := cut (prod shape) in
  match x with
  | GValue y => let '(y', w) := modify fmax shape y v in (GValue y', w)
  | GL1 factor => (x, elements (l1_modifier factor params v))
  | GL2 factor => (x, elements (l2_modifier factor params v))
  end.

(** A loop over objects that change themselves and the memory *)
Fixpoint each {X} (f : X -> vec -> X * vec) (xs : list X) (m : vec) : list X * vec :=
  match xs with
  | [] => ([], m)
  | x :: r => let '(x', m1) := f x m in let '(r', m2) := each f r m1 in (x' :: r', m2)
  end.
(** net.weight_modifiers, net.gradient_modifiers: the entries of the nested dictionaries, as pairs of
    layer and view name, in the order in which the dictionaries are traversed *)
Definition installed (X : Type) := list ((string * string) * list X).
Definition same_key (k k' : string * string) : bool := String.eqb (fst k) (fst k') && String.eqb (snd k) (snd k').
(** The modifiers installed for a view *)
Fixpoint lookup {X} (key : string * string) (w : installed X) : list X :=
  match w with
  | [] => []
  | (k, xs) :: r => if same_key k key then xs else lookup key r
  end.

Record tstate := mkT { t_step : sstate; t_weight : installed vmod; t_grad : installed gmod }.

Section Mods.
  Variables (fmax : R) (layers : list linst) (hubs : list hub) (lay : slices).
  (** self.buffer[layer_name].parameters[view_name], .gradients[view_name]: its cells and its shape *)
  Definition view_cells (T B : nat) (kind : string) (key : string * string) : list nat :=
    match find (fun l => String.eqb (li_name l) (fst key)) layers with
    | Some l => CellsProofs.cells layers hubs lay T B l kind (snd key)
    | None => []
    end.
  Definition view_shape (key : string * string) : list nat :=
    match find (fun l => String.eqb (li_name l) (fst key)) layers with
    | Some l => NetMemoryModel.dims (li_params l) (snd key)
    | None => []
    end.
  (** network.py:490-496 *)
  Definition call_weight (T B : nat) (key : string * string) (x : vmod) (m : vec) : vmod * vec :=
    let cells := view_cells T B "parameters" key in
    let '(x', v) := modify fmax (view_shape key) x (read cells m) in (x', write cells v m).
  Definition apply_weight_modifiers (T B : nat) : installed vmod -> vec -> installed vmod * vec :=
    each (fun entry m => let '(xs, m') := each (call_weight T B (fst entry)) (snd entry) m in ((fst entry, xs), m')).
  (** network.py:498-511 *)
  Definition call_gradient (T B : nat) (key : string * string) (x : gmod) (m : vec) : gmod * vec :=
    let cells := view_cells T B "gradients" key in
    let '(x', v) := modify_gradient fmax (view_shape key) (read (view_cells T B "parameters" key) m) x (read cells m) in (x', write cells v m).
  Definition apply_gradient_modifiers (T B : nat) : installed gmod -> vec -> installed gmod * vec :=
    each (fun entry m => let '(xs, m') := each (call_gradient T B (fst entry)) (snd entry) m in ((fst entry, xs), m')).

  (** network.py:433-445 backward_pass *)
  Definition backward_modified (b : batch) (g : installed gmod) (m : vec) : installed gmod * vec :=
    apply_gradient_modifiers (S (b_time b)) (b_size b) g (backward layers hubs lay b m).
  (** The run method of a stepper (steppers.py:61-69, 97-114, 125-145): gradient modifiers, memory
      and velocity afterwards *)
  Definition run_stepper (st : stepper) (rate : nat -> R) (k : nat) (b : batch) (g : installed gmod) (s : sstate) : installed gmod * vec * vec :=
    let params := param_cells layers hubs lay b in
    let grads := grad_cells layers hubs lay b in
    let forward := forward layers hubs lay b in
    let m := prepared layers hubs lay b (s_params s) in
    match st with
    | Sgd =>
        let '(g, m) := backward_modified b g (forward m) in
        let update := mult_st (- rate k) (read grads m) in
        (g, write params (add_tt update (read params m)) m, update)
    | Momentum mu scale =>
        let lr := effective_rate (rate k) (mu k) scale in
        let '(g, m) := backward_modified b g (forward m) in
        let velocity := mult_st (mu k) (s_buf s) in
        let velocity := mult_add_st (- lr) (read grads m) velocity in
        (g, write params (add_tt velocity (read params m)) m, velocity)
    | Nesterov mu scale =>
        let lr := effective_rate (rate k) (mu k) scale in
        let velocity := mult_st (mu k) (s_buf s) in
        let m := write params (add_tt velocity (read params m)) m in
        let '(g, m) := backward_modified b g (forward m) in
        let velocity := mult_add_st (- lr) (read grads m) velocity in
        (g, write params (mult_add_st (- lr) (read grads m) (read params m)) m, velocity)
    end.
  (** trainer.py:98-101: one update *)
  Definition update (st : stepper) (rate : nat -> R) (k : nat) (b : batch) (x : tstate) : tstate :=
    let '(g, m, velocity) := run_stepper st rate k b (t_grad x) (t_step x) in
    let '(w, m) := apply_weight_modifiers (S (b_time b)) (b_size b) (t_weight x) m in
    mkT (mkS (read (param_cells layers hubs lay b) m) velocity) w g.
  (** trainer.py:80, 97-101 *)
  Fixpoint train (st : stepper) (rate : nat -> R) (batches : nat -> batch) (n : nat) (x : tstate) : tstate :=
    match n with
    | 0 => x
    | S k => update st rate k (batches k) (train st rate batches k x)
    end.
  Definition start (w : installed vmod) (g : installed gmod) (params : vec) : tstate := mkT (stepper_start params) w g.
End Mods.
