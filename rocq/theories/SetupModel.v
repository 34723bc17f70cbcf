(** Model of the construction of layers: brainstorm/layers/*.py [setup],
    brainstorm/layers/base_layer.py [Layer.__init__] and
    brainstorm/structure/architecture.py [instantiate_layers_from_architecture].
    The result of a construction is a layer with the structures of its inputs,
    outputs, parameters and internals, or an exception. *)
From Coq Require Import String Ascii List ZArith QArith Bool.
From Verif Require Import PyBase UtilsModel NamesModel ArchModel ShapesModel.
Import ListNotations.
Open Scope string_scope.
Open Scope list_scope.
Open Scope Z_scope.

(** The exceptions.  [ENotInt] stands for the exception caused by a kernel size
    or a stride that is not an int (TypeError, AssertionError or
    StructureValidationError, depending on the value). *)
Inductive serr :=
| ELayerValidation | EStructureValidation | ENetworkValidation | EValidation
| EAssertion | EValue | EType | EKey | EAttribute | EZeroDivision | EIndex | EUnpack | ENotInt.
Inductive sres (A : Type) := SOk (a : A) | SErr (e : serr).
Arguments SOk {A} _.
Arguments SErr {A} _.
Definition sbind {A B} (r : sres A) (f : A -> sres B) : sres B :=
  match r with SOk a => f a | SErr e => SErr e end.
Notation "'do' x <- r ; k" := (sbind r (fun x => k)) (at level 200, x name, right associativity).
Definition guard (b : bool) (e : serr) : sres unit := if b then SOk tt else SErr e.

(** The value of a keyword argument in a layer description.  A float is an exact
    rational (no NaN, no infinities); a bool counts as an int in Python and is
    not represented separately. *)
Inductive kval :=
| KInt (z : Z)
| KNum (q : Q)
| KStr (s : string)
| KSeq (l : list kval)            (* a list or a tuple *)
| KDict (d : list (string * kval))
| KOther (n : nat).
Definition kwargs := list (string * kval).
(** kwargs.get(key, default) *)
Definition kget (key : string) (default : kval) (kw : kwargs) : kval :=
  match dget key kw with Some v => v | None => default end.

(** ** Buffer structures *)
(** buffer_structure.py:119-137 BufferStructure.__init__ *)
Record bstruct := mkB { bs_shape : list sdim; bs_ctx : Z; bs_bwd : bool }.
Definition new_structure (shape : list sdim) (ctx : Z) (bwd : bool) : sres bstruct :=
  if structure_valid shape (Some ctx) then SOk (mkB shape ctx bwd) else SErr EStructureValidation.
(** BufferStructure( *dims) and BufferStructure('T', 'B', *dims, ...) *)
Definition plain (dims : list Z) : sres bstruct := new_structure (map DInt dims) 0 false.
Definition timed (dims : list Z) (ctx : Z) (bwd : bool) : sres bstruct :=
  new_structure (DT :: DB :: map DInt dims) ctx bwd.
(** buffer_structure.py:152-157 feature_shape and feature_size (feature shapes of
    valid structures consist of ints).  Simplified: np.prod does not overflow. *)
Definition features (b : bstruct) : list Z := map dim_value (feature_shape (bs_shape b)).
Definition fsize (b : bstruct) : Z := fold_right Z.mul 1 (features b).
(** buffer_structure.py:247-253: equality compares the shapes only. *)
Definition bs_eqb (a b : bstruct) : bool := dims_eqb (bs_shape a) (bs_shape b).
Fixpoint zs_eqb (a b : list Z) : bool :=
  match a, b with
  | [], [] => true
  | x :: a', y :: b' => Z.eqb x y && zs_eqb a' b'
  | _, _ => false
  end.
(** buffer_structure.py:262-297: ValueError, ValidationError or the new
    structure (with context size 0). *)
Definition combine_structs (l : list bstruct) : sres bstruct :=
  match combine_buffer_structures (map bs_shape l) with
  | Combined s => new_structure s 0 false
  | DimMismatch => SErr EValue
  | TypeMismatch => SErr EValidation
  | FeatureMismatch => SErr EValue
  end.

(** One element of a shape given by the user. *)
Definition kdim (v : kval) : sdim :=
  match v with
  | KInt z => DInt z
  | KStr s => if String.eqb s "T" then DT else if String.eqb s "B" then DB
              else if String.eqb s "F" then DF else if String.eqb s "..." then DDots else DOther 0
  | _ => DOther 0
  end.
(** BufferStructure( *s) for a value s: a string or a dict gives only elements
    that are not ints, which is rejected; an int or None cannot be unpacked. *)
Definition structure_of_kval (v : kval) : sres bstruct :=
  match v with
  | KSeq l => new_structure (map kdim l) 0 false
  | KStr _ | KDict _ => SErr EStructureValidation
  | _ => SErr EType
  end.

(** ** Layer classes *)
Inductive cls :=
| CBatchNorm | CBinomialCE | CClockwork | CClockworkLstm | CConv | CDeltasScaling | CDropout
| CElementwise | CFullyConnected | CHighway | CInput | CL1Decay | CL2Decay | CLoss | CLstm | CMask
| CMerge | CNoOp | CPool | CRecurrent | CSigmoidCE | CSoftmaxCE | CSquaredDifference | CSquaredError.

(** base_layer.py:11-17 get_layer_class_from_typename, for the typename
    '@type' + 'LayerImpl' (architecture.py:169-170). *)
Definition class_table : list (string * cls) :=
  [("BatchNorm", CBatchNorm); ("BinomialCrossEntropy", CBinomialCE); ("Clockwork", CClockwork);
   ("ClockworkLstm", CClockworkLstm); ("Convolution2D", CConv); ("DeltasScaling", CDeltasScaling);
   ("Dropout", CDropout); ("Elementwise", CElementwise); ("FullyConnected", CFullyConnected);
   ("Highway", CHighway); ("Input", CInput); ("L1Decay", CL1Decay); ("L2Decay", CL2Decay);
   ("Loss", CLoss); ("Lstm", CLstm); ("Mask", CMask); ("Merge", CMerge); ("NoOp", CNoOp);
   ("Pooling2D", CPool); ("Recurrent", CRecurrent); ("SigmoidCE", CSigmoidCE);
   ("SoftmaxCE", CSoftmaxCE); ("SquaredDifference", CSquaredDifference); ("SquaredError", CSquaredError)].
Definition get_layer_class (typename : string) : sres cls :=
  match dget typename class_table with Some c => SOk c | None => SErr EType end.

(** StructureTemplate('T', 'B', '...') and StructureTemplate('...') *)
Definition tb_any : list sdim := [DT; DB; DDots].
Definition any_shape : list sdim := [DDots].
(** expected_inputs of each class: batch_normalization_layer.py:29,
    binomial_cross_entropy_layer.py:34-35, clockwork_layer.py:21,
    clockwork_lstm_layer.py:22, convolution_layer_2d.py:27,
    deltas_scaling_layer.py:27, dropout_layer.py:23, elementwise_layer.py:23,
    fully_connected_layer.py:27, highway_layer.py:20-22, input_layer.py:25,
    l1_decay.py:22, l2_decay.py:22, loss_layer.py:21, lstm_layer.py:23,
    mask_layer.py:20-21, merge_layer.py:20-21, noop_layer.py:22,
    pooling_layer_2d.py:24, recurrent_layer.py:23, sigmoid_ce_layer.py:34-35,
    softmax_ce_layer.py:36-37, squared_difference_layer.py:21-22,
    squared_error_layer.py:33-34. *)
Definition expected_inputs (c : cls) : list (string * list sdim) :=
  match c with
  | CInput => []
  | CLoss => [("default", any_shape)]
  | CMerge => [("inputs_1", any_shape); ("inputs_2", any_shape)]
  | CSquaredDifference => [("inputs_1", tb_any); ("inputs_2", tb_any)]
  | CHighway => [("H", tb_any); ("T", tb_any); ("x", tb_any)]
  | CMask => [("default", tb_any); ("mask", tb_any)]
  | CBinomialCE | CSigmoidCE | CSoftmaxCE | CSquaredError => [("default", tb_any); ("targets", tb_any)]
  | _ => [("default", tb_any)]
  end.
(** expected_kwargs of each class (the line after expected_inputs; Highway, Mask,
    SigmoidCE and SoftmaxCE inherit {} from base_layer.py:55). *)
Definition expected_kwargs (c : cls) : list string :=
  match c with
  | CBatchNorm => ["decay"; "epsilon"]
  | CClockwork | CClockworkLstm | CFullyConnected | CLstm | CRecurrent => ["size"; "activation"]
  | CConv => ["num_filters"; "kernel_size"; "stride"; "padding"; "activation"]
  | CDeltasScaling => ["factor"]
  | CDropout => ["drop_prob"]
  | CElementwise => ["activation"]
  | CInput => ["out_shapes"]
  | CLoss => ["importance"]
  | CPool => ["kernel_size"; "type"; "stride"; "padding"; "activation_function"]
  | _ => []
  end.

(** ** setup *)
(** What [setup] stores in the layer object besides the structures. *)
Record config := mkCfg {
  cf_act : kval;                (* self.activation *)
  cf_scalar : kval;             (* self.factor, self.drop_prob, self.importance, self.decay *)
  cf_epsilon : kval;            (* self.epsilon *)
  cf_kernel : Z * Z;            (* self.kernel_size (Pooling2D) *)
  cf_padding : Z;
  cf_stride : Z * Z;
  cf_max : bool;                (* self.type == 'max' *)
  cf_flatten : nat              (* self.flatten_dim (Mask) *)
}.
Definition no_cfg : config := mkCfg (KOther 0) (KOther 0) (KOther 0) (1, 1) 0 (1, 1) false 0.
Definition act_cfg (a : kval) : config := mkCfg a (KOther 0) (KOther 0) (1, 1) 0 (1, 1) false 0.
Definition scalar_cfg (s : kval) : config := mkCfg (KOther 0) s (KOther 0) (1, 1) 0 (1, 1) false 0.

Record spec := mkSpec {
  sp_out : list (string * bstruct);
  sp_params : list (string * bstruct);
  sp_int : list (string * bstruct);
  sp_cfg : config
}.

(** A sequence of d[name] = BufferStructure(...), stopping at the first
    exception (the names are different). *)
Fixpoint build (l : list (string * sres bstruct)) : sres (list (string * bstruct)) :=
  match l with
  | [] => SOk []
  | (n, r) :: t => do b <- r; do bs <- build t; SOk ((n, b) :: bs)
  end.
(** the same structure for several names *)
Definition same_for (names : list string) (r : sres bstruct) : list (string * sres bstruct) :=
  map (fun n => (n, r)) names.

(** in_shapes[name] *)
Definition in_shape (name : string) (ins : list (string * bstruct)) : sres bstruct :=
  match dget name ins with Some b => SOk b | None => SErr EKey end.

(** isinstance(x, int) *)
Definition as_int (v : kval) : option Z := match v with KInt z => Some z | _ => None end.
Fixpoint as_ints (l : list kval) : option (list Z) :=
  match l with
  | [] => Some []
  | v :: r => match as_int v, as_ints r with Some z, Some zs => Some (z :: zs) | _, _ => None end
  end.
Definition as_number (v : kval) : option Q :=
  match v with KInt z => Some (inject_Z z) | KNum q => Some q | _ => None end.

(** batch_normalization_layer.py:32-52 *)
Definition setup_batch_norm (kw : kwargs) (ins : list (string * bstruct)) : sres spec :=
  let decay := kget "decay" (KNum (9#10)) kw in
  match as_number decay with
  | None => SErr EType
  | Some d =>
      do _ <- guard (Qle_bool 0 d && Qle_bool d 1) EAssertion;
      do x <- in_shape "default" ins;
      do buf <- plain [last (features x) 0];
      SOk (mkSpec [("default", x)]
                  [("gamma", buf); ("beta", buf); ("mu", buf); ("sigma", buf)]
                  [("sigma_b", buf); ("centered", x); ("x_hat", x)]
                  (mkCfg (KOther 0) decay (kget "epsilon" (KNum (1#100000)) kw) (1, 1) 0 (1, 1) false 0))
  end.

(** binomial_cross_entropy_layer.py:41-57 *)
Definition setup_binomial (kw : kwargs) (ins : list (string * bstruct)) : sres spec :=
  do x <- in_shape "default" ins;
  do t <- in_shape "targets" ins;
  do _ <- guard (bs_eqb x t) ELayerValidation;
  do outs <- build [("default", timed [1] 0 false)];
  do ints <- build [("cee", timed (features x) 0 false); ("ceed", timed (features x) 0 true)];
  SOk (mkSpec outs [] ints no_cfg).

(** clockwork_layer.py:26-53 and recurrent_layer.py:26-49 (the latter has no
    parameter 'timing') *)
Definition setup_recurrent (timing : bool) (kw : kwargs) (ins : list (string * bstruct)) : sres spec :=
  do x <- in_shape "default" ins;
  match as_int (kget "size" (KInt (fsize x)) kw) with
  | None => SErr ELayerValidation
  | Some size =>
      do outs <- build [("default", timed [size] 1 false)];
      do params <- build ([("W", plain [size; fsize x]); ("R", plain [size; size]); ("bias", plain [size])]
                          ++ if timing then [("timing", plain [size])] else []);
      do ints <- build [("Ha", timed [size] 1 false); ("dHa", timed [size] 1 true); ("dHb", timed [size] 1 true)];
      SOk (mkSpec outs params ints (act_cfg (kget "activation" (KStr "tanh") kw)))
  end.

(** lstm_layer.py:26-88 and clockwork_lstm_layer.py:26-95 (which adds 'timing') *)
Definition lstm_forward_names : list string := ["Za"; "Zb"; "Ia"; "Ib"; "Fa"; "Fb"; "Oa"; "Ob"; "Ca"; "Cb"].
Definition lstm_backward_names : list string := ["dZa"; "dZb"; "dIa"; "dIb"; "dFa"; "dFb"; "dOa"; "dOb"; "dCa"; "dCb"].
Definition setup_lstm (timing : bool) (kw : kwargs) (ins : list (string * bstruct)) : sres spec :=
  do x <- in_shape "default" ins;
  match as_int (kget "size" (KInt (fsize x)) kw) with
  | None => SErr ELayerValidation
  | Some size =>
      do outs <- build [("default", timed [size] 1 false)];
      do params <- build (same_for ["Wz"; "Wi"; "Wf"; "Wo"] (plain [size; fsize x]) ++
                          same_for ["pi"; "pf"; "po"] (plain [1; size]) ++
                          same_for ["Rz"; "Ri"; "Rf"; "Ro"] (plain [size; size]) ++
                          same_for ["bz"; "bi"; "bf"; "bo"] (plain [size]) ++
                          if timing then [("timing", plain [size])] else []);
      do ints <- build (same_for lstm_forward_names (timed [size] 1 false) ++
                        same_for lstm_backward_names (timed [size] 1 true));
      SOk (mkSpec outs params ints (act_cfg (kget "activation" (KStr "tanh") kw)))
  end.

(** type(v) in [list, tuple] and len(v) == 2, then both entries as ints *)
Definition as_pair (v : kval) : sres (Z * Z) :=
  match v with
  | KSeq [a; b] => match as_int a, as_int b with Some x, Some y => SOk (x, y) | _, _ => SErr ENotInt end
  | _ => SErr EAssertion
  end.
(** ((in + 2 * padding - kernel) // stride) + 1 *)
Definition out_extent (n padding kernel stride : Z) : sres Z :=
  if stride =? 0 then SErr EZeroDivision else SOk ((n + 2 * padding - kernel) / stride + 1).
(** convolution_layer_2d.py:31-76.  Simplified: which of several wrong arguments
    is reported first may differ when entries of kernel_size or stride are not
    ints. *)
Definition setup_conv (kw : kwargs) (ins : list (string * bstruct)) : sres spec :=
  match dget "num_filters" kw, dget "kernel_size" kw with
  | Some nf, Some ks =>
      match as_int (kget "padding" (KInt 0) kw) with
      | None => SErr EAssertion
      | Some padding =>
          do _ <- guard (0 <=? padding) EAssertion;
          do kernel <- as_pair ks;
          do stride <- as_pair (kget "stride" (KSeq [KInt 1; KInt 1]) kw);
          do _ <- guard ((0 <=? fst stride) && (0 <=? snd stride)) EAssertion;
          do x <- in_shape "default" ins;
          match features x with
          | [rows; cols; maps] =>
              do oh <- out_extent rows padding (fst kernel) (fst stride);
              do ow <- out_extent cols padding (snd kernel) (snd stride);
              do outs <- build [("default", new_structure [DT; DB; DInt oh; DInt ow; kdim nf] 0 false)];
              do params <- build [("W", new_structure [kdim nf; DInt (fst kernel); DInt (snd kernel); DInt maps] 0 false);
                                  ("bias", new_structure [kdim nf] 0 false)];
              SOk (mkSpec outs params []
                     (mkCfg (kget "activation" (KStr "tanh") kw) (KOther 0) (KOther 0) kernel padding stride false 0))
          | _ => SErr EAssertion
          end
      end
  | _, _ => SErr EAssertion
  end.

(** pooling_layer_2d.py:28-72, with the same simplification *)
Definition setup_pool (kw : kwargs) (ins : list (string * bstruct)) : sres spec :=
  match dget "kernel_size" kw, dget "type" kw with
  | Some ks, Some ty =>
      do ismax <- match ty with
                  | KStr s => if String.eqb s "max" then SOk true else if String.eqb s "avg" then SOk false else SErr EAssertion
                  | _ => SErr EAssertion
                  end;
      match as_int (kget "padding" (KInt 0) kw) with
      | None => SErr EAssertion
      | Some padding =>
          do _ <- guard (0 <=? padding) EAssertion;
          do kernel <- as_pair ks;
          do stride <- as_pair (kget "stride" (KSeq [KInt 1; KInt 1]) kw);
          do _ <- guard ((0 <=? fst stride) && (0 <=? snd stride)) EAssertion;
          do x <- in_shape "default" ins;
          match features x with
          | [rows; cols; maps] =>
              do oh <- out_extent rows padding (fst kernel) (fst stride);
              do ow <- out_extent cols padding (snd kernel) (snd stride);
              do _ <- guard ((0 <? oh) && (0 <? ow)) EAssertion;
              do outs <- build [("default", timed [oh; ow; maps] 0 false)];
              do ints <- build (if ismax then [("argmax", timed [oh; ow; maps] 0 false)] else []);
              SOk (mkSpec outs [] ints (mkCfg (KOther 0) (KOther 0) (KOther 0) kernel padding stride ismax 0))
          | _ => SErr EAssertion
          end
      end
  | _, _ => SErr EAssertion
  end.

(** deltas_scaling_layer.py:30-35 *)
Definition setup_deltas_scaling (kw : kwargs) (ins : list (string * bstruct)) : sres spec :=
  match dget "factor" kw with
  | None => SErr ELayerValidation
  | Some f => SOk (mkSpec ins [] [] (scalar_cfg f))
  end.
(** dropout_layer.py:26-34 *)
Definition setup_dropout (kw : kwargs) (ins : list (string * bstruct)) : sres spec :=
  do x <- in_shape "default" ins;
  SOk (mkSpec [("default", x)] [] [("mask", x)] (scalar_cfg (kget "drop_prob" (KNum (1#2)) kw))).
(** elementwise_layer.py:26-28 *)
Definition setup_elementwise (kw : kwargs) (ins : list (string * bstruct)) : sres spec :=
  SOk (mkSpec ins [] [] (act_cfg (kget "activation" (KStr "rel") kw))).
(** noop_layer.py:25-26 *)
Definition setup_noop (kw : kwargs) (ins : list (string * bstruct)) : sres spec :=
  SOk (mkSpec ins [] [] no_cfg).
(** fully_connected_layer.py:30-50 *)
Definition setup_fully_connected (kw : kwargs) (ins : list (string * bstruct)) : sres spec :=
  do x <- in_shape "default" ins;
  let size := match dget "size" kw with
              | None => Some (features x)
              | Some (KInt z) => Some [z]
              | Some (KSeq l) => as_ints l
              | Some _ => None
              end in
  match size with
  | None => SErr ELayerValidation
  | Some dims =>
      do out <- timed dims 0 false;
      do params <- build [("W", plain [fsize out; fsize x]); ("bias", plain [fsize out])];
      SOk (mkSpec [("default", out)] params [] (act_cfg (kget "activation" (KStr "rel") kw)))
  end.
(** highway_layer.py:24-38 *)
Definition setup_highway (kw : kwargs) (ins : list (string * bstruct)) : sres spec :=
  do h <- in_shape "H" ins;
  do t <- in_shape "T" ins;
  do _ <- guard (bs_eqb h t) ELayerValidation;
  do x <- in_shape "x" ins;
  do _ <- guard (bs_eqb h x) ELayerValidation;
  do outs <- build [("default", timed (features x) 0 false)];
  SOk (mkSpec outs [] [] no_cfg).
(** input_layer.py:28-39 *)
Definition setup_input (kw : kwargs) (ins : list (string * bstruct)) : sres spec :=
  match dget "out_shapes" kw with
  | None => SErr ELayerValidation
  | Some v =>
      do _ <- guard (match ins with [] => true | _ => false end) ELayerValidation;
      match v with
      | KDict d => do outs <- build (map (fun e => (fst e, structure_of_kval (snd e))) d);
                   SOk (mkSpec outs [] [] no_cfg)
      | _ => SErr EAttribute
      end
  end.
(** l1_decay.py:25-33 *)
Definition setup_l1_decay (kw : kwargs) (ins : list (string * bstruct)) : sres spec :=
  do outs <- build [("loss", timed [1] 0 false)];
  do x <- in_shape "default" ins;
  SOk (mkSpec outs [] [("tmp", x)] no_cfg).
(** l2_decay.py:25-35 *)
Definition setup_l2_decay (kw : kwargs) (ins : list (string * bstruct)) : sres spec :=
  do outs <- build [("loss", timed [1] 0 false)];
  do x <- in_shape "default" ins;
  do ints <- build [("tmp", SOk x); ("dsq_activations", new_structure (bs_shape x) 0 true)];
  SOk (mkSpec outs [] ints no_cfg).
(** loss_layer.py:24-36; the batch index is computed from the shape again in
    the passes. *)
Definition setup_loss (name : string) (kw : kwargs) (ins : list (string * bstruct)) : sres spec :=
  do _ <- guard (negb (String.eqb name "total_loss")) EAssertion;
  do _ <- in_shape "default" ins;
  do outs <- build [("loss", plain [1])];
  SOk (mkSpec outs [] [] (scalar_cfg (kget "importance" (KNum 1) kw))).
(** mask_layer.py:25-42 *)
Definition setup_mask (kw : kwargs) (ins : list (string * bstruct)) : sres spec :=
  do x <- in_shape "default" ins;
  do m <- in_shape "mask" ins;
  let expected := removelast (features x) ++ [1] in
  if zs_eqb (features m) [1] then
    SOk (mkSpec [("default", x)] [] [] (mkCfg (KOther 0) (KOther 0) (KOther 0) (1, 1) 0 (1, 1) false 2))
  else if zs_eqb (features m) expected || zs_eqb (features m) (features x) then
    SOk (mkSpec [("default", x)] [] []
           (mkCfg (KOther 0) (KOther 0) (KOther 0) (1, 1) 0 (1, 1) false (length (features x) + 1)))
  else SErr ELayerValidation.
(** merge_layer.py:24-44 *)
Definition setup_merge (kw : kwargs) (ins : list (string * bstruct)) : sres spec :=
  do a <- in_shape "inputs_1" ins;
  do b <- in_shape "inputs_2" ins;
  do _ <- guard (dims_eqb (removelast (bs_shape a)) (removelast (bs_shape b))) ELayerValidation;
  do outs <- build [("default",
     new_structure (removelast (bs_shape a) ++
                    [DInt (dim_value (last (bs_shape a) (DInt 0)) + dim_value (last (bs_shape b) (DInt 0)))]) 0 false)];
  SOk (mkSpec outs [] [] no_cfg).
(** sigmoid_ce_layer.py:40-56 *)
Definition setup_sigmoid_ce (kw : kwargs) (ins : list (string * bstruct)) : sres spec :=
  do x <- in_shape "default" ins;
  do t <- in_shape "targets" ins;
  do _ <- guard (zs_eqb (features t) (features x)) ELayerValidation;
  do outs <- build [("predictions", timed (features x) 0 false); ("loss", timed (features x) 0 false)];
  do ints <- build [("dcee", timed (features x) 0 true)];
  SOk (mkSpec outs [] ints no_cfg).
(** softmax_ce_layer.py:42-63 *)
Definition setup_softmax_ce (kw : kwargs) (ins : list (string * bstruct)) : sres spec :=
  do x <- in_shape "default" ins;
  do t <- in_shape "targets" ins;
  do _ <- guard (length (features t) =? length (features x))%nat ELayerValidation;
  do _ <- guard (zs_eqb (removelast (features t)) (removelast (features x))) ELayerValidation;
  do _ <- guard (last (features t) 0 =? 1) ELayerValidation;
  do outs <- build [("predictions", timed (features x) 0 false); ("loss", timed (features t) 0 false)];
  do ints <- build [("t_bin", timed (features x) 0 true)];
  SOk (mkSpec outs [] ints no_cfg).
(** squared_difference_layer.py:25-40 *)
Definition setup_squared_difference (kw : kwargs) (ins : list (string * bstruct)) : sres spec :=
  do a <- in_shape "inputs_1" ins;
  do b <- in_shape "inputs_2" ins;
  do _ <- guard (zs_eqb (features a) (features b)) ELayerValidation;
  do outs <- build [("default", timed (features a) 0 false)];
  do ints <- build [("diff", timed (features a) 0 false)];
  SOk (mkSpec outs [] ints no_cfg).
(** squared_error_layer.py:39-54 *)
Definition setup_squared_error (kw : kwargs) (ins : list (string * bstruct)) : sres spec :=
  do x <- in_shape "default" ins;
  do t <- in_shape "targets" ins;
  do _ <- guard (zs_eqb (features x) (features t)) ELayerValidation;
  do outs <- build [("predictions", timed (features x) 0 false); ("loss", timed (features x) 0 false)];
  do ints <- build [("diff", timed (features x) 0 false)];
  SOk (mkSpec outs [] ints no_cfg).

Definition setup (c : cls) (name : string) (kw : kwargs) (ins : list (string * bstruct)) : sres spec :=
  match c with
  | CBatchNorm => setup_batch_norm kw ins
  | CBinomialCE => setup_binomial kw ins
  | CClockwork => setup_recurrent true kw ins
  | CClockworkLstm => setup_lstm true kw ins
  | CConv => setup_conv kw ins
  | CDeltasScaling => setup_deltas_scaling kw ins
  | CDropout => setup_dropout kw ins
  | CElementwise => setup_elementwise kw ins
  | CFullyConnected => setup_fully_connected kw ins
  | CHighway => setup_highway kw ins
  | CInput => setup_input kw ins
  | CL1Decay => setup_l1_decay kw ins
  | CL2Decay => setup_l2_decay kw ins
  | CLoss => setup_loss name kw ins
  | CLstm => setup_lstm false kw ins
  | CMask => setup_mask kw ins
  | CMerge => setup_merge kw ins
  | CNoOp => setup_noop kw ins
  | CPool => setup_pool kw ins
  | CRecurrent => setup_recurrent false kw ins
  | CSigmoidCE => setup_sigmoid_ce kw ins
  | CSoftmaxCE => setup_softmax_ce kw ins
  | CSquaredDifference => setup_squared_difference kw ins
  | CSquaredError => setup_squared_error kw ins
  end.

(** ** Layer.__init__ *)
Record linst := mkInst {
  li_cls : cls;
  li_name : string;
  li_in : list (string * bstruct);
  li_out : list (string * bstruct);
  li_params : list (string * bstruct);
  li_int : list (string * bstruct);
  li_cfg : config;
  li_incoming : list connection;
  li_outgoing : list connection
}.

(** base_layer.py:139-147 *)
Definition validate_kwargs (c : cls) (kw : kwargs) : bool :=
  forallb (fun e => smem (fst e) (expected_kwargs c)) kw.
(** base_layer.py:149-176 *)
Definition validate_in_shapes (c : cls) (ins : list (string * bstruct)) : bool :=
  forallb (fun e => smem (fst e) (map fst (expected_inputs c))) ins &&
  forallb (fun e => smem (fst e) (map fst ins)) (expected_inputs c) &&
  forallb (fun e => match dget (fst e) (expected_inputs c) with
                    | Some t => template_matches t (bs_shape (snd e))
                    | None => false end) ins.
(** s.startswith('..') *)
Definition dotted (s : string) : bool := String.prefix ".." s.
(** s[2:] *)
Definition drop2 (s : string) : string := match s with String _ (String _ r) => r | _ => "" end.
(** base_layer.py:194-226: one outgoing connection *)
Definition valid_outgoing (sp : spec) (c : connection) : bool :=
  if dotted (c_out c) then
    let (category, substruct) := partition_dot (drop2 (c_out c)) in
    if String.eqb category "parameters" then PyBase.dmem substruct (sp_params sp)
    else if String.eqb category "internals" then PyBase.dmem substruct (sp_int sp)
    else false
  else PyBase.dmem (c_out c) (sp_out sp).
(** base_layer.py:178-226; the error message for a wrong incoming connection
    (190-192) accesses the missing attribute sink_name. input_layer.py:41-47 *)
Definition validate_connections (c : cls) (ins : list (string * bstruct)) (sp : spec)
  (incoming outgoing : list connection) : sres unit :=
  if negb (forallb (fun k => PyBase.dmem (c_in k) ins) incoming) then SErr EAttribute
  else if negb (forallb (valid_outgoing sp) outgoing) then SErr ELayerValidation
  else match c, incoming with
       | CInput, _ :: _ => SErr ELayerValidation
       | _, _ => SOk tt
       end.
(** base_layer.py:65-83 Layer.__init__.  Simplified: no keyword argument is called
    'name', 'in_shapes', 'incoming_connections' or 'outgoing_connections' (a
    TypeError). *)
Definition make_layer (c : cls) (name : string) (in_shapes : list (string * bstruct))
  (incoming outgoing : list connection) (kw : kwargs) : sres linst :=
  let ins := isort (fun a b => String.leb (fst a) (fst b)) in_shapes in
  do _ <- guard (validate_kwargs c kw) ELayerValidation;
  do _ <- guard (validate_in_shapes c ins) ELayerValidation;
  do sp <- setup c name kw ins;
  do _ <- validate_connections c ins sp incoming outgoing;
  SOk (mkInst c name ins (sp_out sp) (sp_params sp) (sp_int sp) (sp_cfg sp) incoming outgoing).

(** ** instantiate_layers_from_architecture *)
(** base_layer.py:125-137 get_shape for the normalized path of
    architecture.py:179 (get_by_path splits the rest of the path at dots; a
    dotted rest is not found). *)
Definition get_shape (l : linst) (path : string) : sres bstruct :=
  let (category, subpath) := partition_dot path in
  let lookup d := match split_dot subpath with
                  | [x] => match dget x d with Some b => SOk b | None => SErr EKey end
                  | _ => SErr EKey
                  end in
  if String.eqb category "parameters" then lookup (li_params l)
  else if String.eqb category "inputs" then lookup (li_in l)
  else if String.eqb category "outputs" then lookup (li_out l)
  else if String.eqb category "internals" then lookup (li_int l)
  else SErr EValue.
(** architecture.py:177-180 *)
Definition source_shape (layers : list linst) (c : connection) : sres bstruct :=
  match find (fun l => String.eqb (li_name l) (c_start c)) layers with
  | None => SErr EKey
  | Some l => match get_normalized_path ["outputs"; c_out c] with
              | PathOk p => get_shape l p
              | _ => SErr EAssertion
              end
  end.
Fixpoint smap {A B} (f : A -> sres B) (l : list A) : sres (list B) :=
  match l with
  | [] => SOk []
  | x :: r => do y <- f x; do ys <- smap f r; SOk (y :: ys)
  end.
Definition connection_eq_dec (a b : connection) : {a = b} + {a <> b}.
Proof. decide equality; apply string_dec. Defined.
(** {c for c in connections if ...}: a set has no duplicates.  The order in
    which a set is iterated over is arbitrary; here it is the order of the
    sorted list of connections (that it does not matter is a theorem). *)
Definition con_set (p : connection -> bool) (cns : list connection) : list connection :=
  nodup connection_eq_dec (filter p cns).
(** architecture.py:171-183: the shape of one input *)
Definition input_structure (layers : list linst) (incoming : list connection) (input_name : string) : sres bstruct :=
  do shapes <- smap (source_shape layers) (filter (fun c => String.eqb (c_in c) input_name) incoming);
  combine_structs shapes.
(** architecture.py:174-183 *)
Definition input_structures (layers : list linst) (incoming : list connection) : sres (list (string * bstruct)) :=
  smap (fun n => do b <- input_structure layers incoming n; SOk (n, b))
       (nodup string_dec (map c_in incoming)).

(** An architecture with the keyword arguments of the layers
    (architecture.py:158-160 get_kwargs). *)
Definition karch := list (string * (raw_layer * kwargs)).
Definition raw_of (a : karch) : raw_arch := map (fun e => (fst e, fst (snd e))) a.

(** architecture.py:167-186: one round of the loop *)
Definition instantiate_one (a : karch) (cns : list connection) (layers : list linst) (name : string) : sres (list linst) :=
  match dget name a with
  | None => SErr EKey
  | Some (r, kw) =>
      match r_type r with
      | TypeString ty =>
          do c <- get_layer_class ty;
          let incoming := con_set (fun k => String.eqb (c_end k) name) cns in
          let outgoing := con_set (fun k => String.eqb (c_start k) name) cns in
          do ins <- input_structures layers incoming;
          do l <- make_layer c name ins incoming outgoing kw;
          SOk (layers ++ [l])
      | _ => SErr EType
      end
  end.
Fixpoint instantiate_loop (a : karch) (cns : list connection) (order : list string) (layers : list linst) : sres (list linst) :=
  match order with
  | [] => SOk layers
  | n :: r => do layers' <- instantiate_one a cns layers n; instantiate_loop a cns r layers'
  end.
(** architecture.py:163-187 *)
Definition instantiate (a : karch) : sres (list linst) :=
  match validate_architecture (raw_of a) with
  | ValidationError => SErr ENetworkValidation
  | KeyError => SErr EKey
  | Accepted =>
      match collect_all_connections (raw_of a) with
      | None => SErr EKey
      | Some cns =>
          match get_canonical_layer_order (raw_of a) with
          | OrderOk order => instantiate_loop a cns order []
          | OrderAssertionError => SErr EAssertion
          | _ => SErr EKey
          end
      end
  end.
