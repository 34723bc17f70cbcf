(** The layers of a network built from an architecture, with the cells of their buffers in
    the memory of the network: MemoryPassModel for the layers of SetupModel and the layout
    of LayoutModel. *)
From Coq Require Import String Ascii List ZArith QArith Qreals Reals Bool.
From Verif Require Import NumBase NumpyModel LayersModel RecurrentModel NetworkModel NetLayersModel MemoryPassModel.
From Verif Require Import HubModel LayoutModel BuffersModel.
From Verif Require Import PyBase UtilsModel NamesModel ArchModel ShapesModel SetupModel NetLayoutProofs NetLayoutProps CellsProofs.
Import ListNotations.
Open Scope string_scope.
Open Scope list_scope.
Open Scope nat_scope.

(** What the passes use besides the buffers: the outputs of recurrent layers at time -1, the
    masks drawn by dropout layers, the precision and the least value of the floats. *)
Record env := mkEnv { e_ctx : string -> mat; e_drop : string -> mat; e_precision : Z; e_min : R }.

(** base_handler.py:42-72: the activation functions by name *)
Definition act_of (v : kval) : option act :=
  match v with
  | KStr s => if String.eqb s "sigmoid" then Some Sigmoid else if String.eqb s "rel" then Some Rel
              else if String.eqb s "tanh" then Some Tanh else if String.eqb s "linear" then Some Linear
              else if String.eqb s "el" then Some El else None
  | _ => None
  end.
Definition the_act (l : linst) : act := match act_of (cf_act (li_cfg l)) with Some a => a | None => Linear end.
Definition is_some {A} (o : option A) : bool := match o with Some _ => true | None => false end.
Definition number (v : kval) : R := match as_number v with Some q => Q2R q | None => 0%R end.
(** Number of features and feature shape of a buffer, and the product of its time and batch dimension *)
Definition nf (d : list (string * bstruct)) (n : string) : nat := match dget n d with Some b => nfeatures b | None => 0 end.
Definition dims (d : list (string * bstruct)) (n : string) : list nat := match dget n d with Some b => fdims b | None => [] end.
Definition nlead (b : bstruct) (T B : nat) : nat :=
  fold_right Nat.mul 1 (map (fun d => match d with DT => T | DB => B | _ => 1 end) (bs_shape b)).
Definition lead (d : list (string * bstruct)) (n : string) (T B : nat) : nat := match dget n d with Some b => nlead b T B | None => 0 end.
Definition one_dim (d : list (string * bstruct)) (n : string) : bool := length (dims d n) =? 1.
(** loss_layer.py:28-32, 39-42 *)
Definition loss_batch (l : linst) (B : nat) : R :=
  match dget "default" (li_in l) with
  | Some b => if existsb (fun d => match d with DT | DB => true | _ => false end) (bs_shape b) then INR B else 1%R
  | None => 1%R
  end.
(** The index of a class given as a float (numpy_handler.py index_m_by_v, binarize_v); an
    index past all classes for negative numbers, which index from the end in Python. *)
Definition class_of (n : nat) (r : R) : nat := if Rle_dec 0 r then Z.to_nat (Int_part r) else S n.
(** convolution_layer_2d.py:78-112, pooling_layer_2d.py:74-121 *)
Definition geometry_of (l : linst) : geometry :=
  let cfg := li_cfg l in
  let f := dims (li_in l) "default" in
  mkGeo (nth 0 f 0) (nth 1 f 0) (nth 2 f 0) (Z.to_nat (fst (cf_kernel cfg))) (Z.to_nat (snd (cf_kernel cfg)))
        (Z.to_nat (cf_padding cfg)) (Z.to_nat (fst (cf_stride cfg))) (Z.to_nat (snd (cf_stride cfg))).

(** The layers covered: a known activation function, numbers where numbers are needed.
    Layers whose passes use flatten_all_but_last are covered for one feature dimension only: for
    more dimensions it may copy the buffers (C64). *)
Definition supported (l : linst) : bool :=
  let act_ok := is_some (act_of (cf_act (li_cfg l))) in
  let num_ok := is_some (as_number (cf_scalar (li_cfg l))) in
  match li_cls l with
  | CInput | CDeltasScaling => false
  | CFullyConnected | CElementwise | CRecurrent | CClockwork | CLstm | CClockworkLstm | CConv => act_ok
  | CHighway | CSquaredDifference | CSquaredError | CSigmoidCE | CNoOp | CL1Decay | CL2Decay => true
  | CDropout | CLoss => num_ok
  | CMerge => one_dim (li_in l) "inputs_1" && one_dim (li_in l) "inputs_2"
  | CMask => cf_flatten (li_cfg l) =? 2
  | CBinomialCE => one_dim (li_in l) "default"
  | CSoftmaxCE => one_dim (li_in l) "default" && negb (nf (li_in l) "default" =? 0)
  | CBatchNorm => one_dim (li_in l) "default" && num_ok && is_some (as_number (cf_epsilon (li_cfg l)))
  | CPool => (0 <=? fst (cf_kernel (li_cfg l)))%Z && (0 <=? snd (cf_kernel (li_cfg l)))%Z
  end.

(** The inputs that get deltas, the inputs that are constants of the layer, the outputs whose
    deltas are used, the parameters with gradients *)
Definition in_names (c : cls) : list string :=
  match c with
  | CInput => []
  | CHighway => ["H"; "T"; "x"]
  | CMerge | CSquaredDifference => ["inputs_1"; "inputs_2"]
  | _ => ["default"]
  end.
Definition const_names (c : cls) : list string :=
  match c with
  | CMask => ["mask"]
  | CBinomialCE | CSigmoidCE | CSoftmaxCE | CSquaredError => ["targets"]
  | _ => []
  end.
Definition out_names (c : cls) : list string :=
  match c with
  | CInput | CLoss => []
  | CL1Decay | CL2Decay | CSigmoidCE | CSoftmaxCE | CSquaredError => ["loss"]
  | _ => ["default"]
  end.
Definition loss_names (c : cls) : list string := match c with CLoss => ["loss"] | _ => [] end.
Definition par_names (l : linst) : list string := filter (fun p => negb (smem p ["timing"; "mu"; "sigma"])) (map fst (li_params l)).

(** The layer for [S T] time steps and [B] sequences; [tg] are the values of its constant
    inputs, [tm] those of its parameter timing.  Simplified: contexts are taken from [env];
    the moving averages mu and sigma of BatchNorm layers, on which training passes do
    not depend, are not updated in the memory. *)
Definition kind_of (e : env) (T B : nat) (l : linst) (tg tm : vec) : kind :=
  let rows := S T * B in
  let a := the_act l in
  let x := nf (li_in l) "default" in
  let y := nf (li_out l) "default" in
  let scalar := number (cf_scalar (li_cfg l)) in
  match li_cls l with
  | CFullyConnected => KFullyConnected a rows x y
  | CElementwise => KElementwise a rows x
  | CHighway => KHighway rows (nf (li_in l) "x")
  | CMerge => KMerge (lead (li_in l) "inputs_1" (S T) B) (nf (li_in l) "inputs_1") (nf (li_in l) "inputs_2")
  | CMask => let k := nf (li_in l) "mask" in KMask (k =? 1) rows x (mat_of k tg)
  | CSquaredDifference => KSquaredDifference rows (nf (li_in l) "inputs_1")
  | CSquaredError => KSquaredError rows x (mat_of x tg)
  | CSoftmaxCE => KSoftmaxCE rows (x - 1) (fun i => class_of (x - 1) (tg i))
  | CSigmoidCE => KSigmoidCE rows x (mat_of x tg)
  | CBatchNorm => KBatchNorm rows x scalar (number (cf_epsilon (li_cfg l))) none none none
  | CRecurrent => KRecurrent a x y T B (e_ctx e (li_name l))
  | CClockwork => KClockwork a x y tm T B (e_ctx e (li_name l))
  | CLstm => KLstm a x y T B
  | CClockworkLstm => KClockworkLstm a x y tm T B
  | CLoss => KLoss (lead (li_in l) "default" (S T) B) x scalar (loss_batch l B)
  | CDropout => KDropout scalar rows x (e_drop e (li_name l))
  | CL1Decay => KL1Decay rows x
  | CL2Decay => KL2Decay rows x
  | CBinomialCE => KBinomialCE rows x (mat_of x tg)
  | CConv => KConvolution a (geometry_of l) rows (last (dims (li_out l) "default") 0)
  | CPool => if cf_max (li_cfg l) then KMaxPool (e_precision e) (e_min e) (geometry_of l) rows else KAvgPool (geometry_of l) rows
  | CNoOp | CInput | CDeltasScaling => KNoOp rows x
  end.

Section Memory.
  Variables (layers : list linst) (hubs : list hub) (lay : slices) (e : env) (T B : nat).
  (** The cells of several buffers of a layer *)
  Definition cells_of (l : linst) (cat : string) (names : list string) : list nat :=
    flat_map (cells layers hubs lay (S T) B l cat) names.
  (** The buffers a layer gets in its passes (network.py:430, 444: self.buffer[layer_name]) *)
  Definition mlayer_of (l : linst) : mlayer :=
    let c := li_cls l in
    mkM (fun m => kind_of e T B l (read (cells_of l "inputs" (const_names c)) m) (read (cells_of l "parameters" ["timing"]) m))
        (cells_of l "inputs" (in_names c)) (cells_of l "outputs" (out_names c)) (cells_of l "parameters" (par_names l))
        (cells_of l "input_deltas" (in_names c)) (cells_of l "output_deltas" (out_names c)) (cells_of l "gradients" (par_names l))
        (cells_of l "outputs" (loss_names c)).
  (** network.py:429: the first layer, which is the input layer, is left out *)
  Definition mlayers : list mlayer := map mlayer_of (tl layers).
  (** network.py:424-430 forward_pass *)
  Definition net_forward_pass (m : vec) : vec := mem_forward mlayers m.
  (** network.py:442-444 backward_pass without gradient modifiers *)
  Definition net_backward_pass (m : vec) : vec := mem_backward mlayers (clear_backward_buffers R 0%R hubs (S T) B m).
  (** get_loss_values()['total_loss'] (network.py:447-475) *)
  Definition net_loss (m : vec) : R := mem_loss mlayers m.
End Memory.
