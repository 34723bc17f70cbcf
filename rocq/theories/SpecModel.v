(** Building networks with brainstorm/tools.py: get_in_out_layers and create_net_from_spec. *)
From Coq Require Import String Ascii List Arith NArith ZArith QArith Bool.
From Verif Require Import PyBase UtilsModel NamesModel ArchModel ShapesModel SetupModel.
Import ListNotations.
Open Scope string_scope.
Open Scope list_scope.
Open Scope nat_scope.

(** ** Reading a spec line *)
(** An argument after trynumber (tools.py:472-479): an int, a float (as an exact rational), a letter. *)
Inductive arg := AInt (z : Z) | ANum (q : Q) | ALetter (c : ascii).

Definition between (lo hi : N) (c : ascii) : bool := ((lo <=? N_of_ascii c) && (N_of_ascii c <=? hi))%N.
(** \s, [A-Z], [a-z], [0-9], [:/|], for ASCII characters (simplified: without the separators 28-31) *)
Definition is_space (c : ascii) : bool := between 9 13 c || Ascii.eqb c " "%char.
Definition is_upper (c : ascii) : bool := between 65 90 c.
Definition is_lower (c : ascii) : bool := between 97 122 c.
Definition is_digit (c : ascii) : bool := between 48 57 c.
Definition is_sep (c : ascii) : bool := Ascii.eqb c ":"%char || Ascii.eqb c "/"%char || Ascii.eqb c "|"%char.

(** The longest prefix of characters in a class, and the rest *)
Fixpoint span (p : ascii -> bool) (s : list ascii) : list ascii * list ascii :=
  match s with
  | [] => ([], [])
  | c :: r => if p c then let (a, b) := span p r in (c :: a, b) else ([], s)
  end.
Definition skip (p : ascii -> bool) (s : list ascii) : list ascii := snd (span p s).

Definition digit (c : ascii) : Z := Z.of_N (N_of_ascii c) - 48.
Definition value_of (ds : list ascii) : Z := fold_left (fun v c => 10 * v + digit c)%Z ds 0%Z.
(** float('ds.es') without sign *)
Definition decimal (ds es : list ascii) : Q := Qmake (value_of (ds ++ es)) (Pos.pow 10 (Pos.of_nat (length es))).

(** The expression FLOAT (tools.py:571) with trynumber: [-+]?[0-9]*\.?[0-9]+ takes a point only if a digit
    follows; int() reads the texts without point, float() the others. *)
Definition read_number (s : list ascii) : option (arg * list ascii) :=
  let '(neg, s1) := match s with
                    | c :: r => if Ascii.eqb c "-"%char then (true, r) else if Ascii.eqb c "+"%char then (false, r) else (false, s)
                    | [] => (false, s)
                    end in
  let (ds, s2) := span is_digit s1 in
  match s2 with
  | c :: r =>
      let (es, s3) := span is_digit r in
      if Ascii.eqb c "."%char && negb (length es =? 0) then
        Some (ANum (if neg then Qopp (decimal ds es) else decimal ds es), s3)
      else if length ds =? 0 then None else Some (AInt (if neg then - value_of ds else value_of ds)%Z, s2)
  | [] => if length ds =? 0 then None else Some (AInt (if neg then - value_of ds else value_of ds)%Z, s2)
  end.
(** The expression ARG (tools.py:572): \s*([a-z]|FLOAT)\s*[:/|]?\s* *)
Definition read_gap (s : list ascii) : list ascii :=
  match skip is_space s with
  | c :: r => if is_sep c then skip is_space r else c :: r
  | [] => []
  end.
Definition read_arg (s : list ascii) : option (arg * list ascii) :=
  match skip is_space s with
  | c :: r =>
      if is_lower c then Some (ALetter c, read_gap r)
      else match read_number (c :: r) with Some (a, rest) => Some (a, read_gap rest) | None => None end
  | [] => None
  end.
(** ARG_LIST (tools.py:573), then re.split and trynumber (tools.py:581-582): nothing follows the list in
    ARCH_SPEC, so each argument is the first match of ARG, and re.split finds the same matches.
    [fuel] bounds the number of arguments. *)
Fixpoint read_args (fuel : nat) (s : list ascii) : list arg * list ascii :=
  match fuel with
  | 0 => ([], s)
  | S f => match read_arg s with
           | Some (a, rest) => let (l, rest') := read_args f rest in (a :: l, rest')
           | None => ([], s)
           end
  end.
(** The loop over re.finditer(ARCH_SPEC, spec) (tools.py:574-583): what does not belong to a match is skipped. *)
Fixpoint read_items (fuel : nat) (s : list ascii) : list (string * list arg) :=
  match fuel with
  | 0 => []
  | S f =>
      match skip (fun c => negb (is_upper c)) s with
      | [] => []
      | s1 =>
          let (ty, s2) := span is_upper s1 in
          let (args, s3) := read_args (length s2) (skip is_space s2) in
          (string_of_list_ascii ty, args) :: read_items f s3
      end
  end.
Definition read_spec (spec : string) : list (string * list arg) :=
  let s := list_ascii_of_string spec in read_items (length s) s.

(** ** The layers of a spec line *)
(** A layer to be created: its type and its keyword arguments. *)
Definition layer_call := (string * kwargs)%type.
Definition arg_value (a : arg) : kval :=
  match a with AInt z => KInt z | ANum q => KNum q | ALetter c => KStr (String c "") end.
(** tools.py:348-353 act_funcs *)
Definition act_funcs (a : arg) : option string :=
  match a with
  | ALetter c => if Ascii.eqb c "s"%char then Some "sigmoid" else if Ascii.eqb c "t"%char then Some "tanh"
                 else if Ascii.eqb c "r"%char then Some "rel" else if Ascii.eqb c "l"%char then Some "linear" else None
  | _ => None
  end.
(** tools.py:357-361, 381-385, 392-396, 403-407: the optional activation function *)
Definition take_activation (default : string) (args : list arg) : string * list arg :=
  match args with
  | a :: r => match act_funcs a with Some f => (f, r) | None => (default, args) end
  | [] => (default, [])
  end.
(** tools.py:356-364 F, 380-388 R, 391-399 L: further arguments are ignored *)
Definition sized (ty default : string) (args : list arg) : sres layer_call :=
  let (f, r) := take_activation default args in
  match r with
  | [] => SErr EIndex
  | AInt z :: _ => SOk (ty, [("size", KInt z); ("activation", KStr f)])
  | _ :: _ => SErr EAssertion
  end.
(** tools.py:367-369 B; batch_normalization_layer.py:14-24 *)
Definition spec_B (args : list arg) : sres layer_call :=
  match args with [] => SOk ("BatchNorm", [("decay", KNum (9#10)); ("epsilon", KNum (1#100000))]) | _ => SErr EAssertion end.
(** tools.py:372-377 D; dropout_layer.py:12-18 *)
Definition spec_D (args : list arg) : sres layer_call :=
  match args with
  | [] => SOk ("Dropout", [("drop_prob", KNum (1#2))])
  | ANum q :: _ => SOk ("Dropout", [("drop_prob", KNum q)])
  | _ :: _ => SErr EAssertion
  end.
(** tools.py:414-423 and 444-453: the options for padding and stride *)
Fixpoint options (fuel : nat) (args : list arg) (padding stride : arg) : sres (arg * arg) :=
  match fuel with
  | 0 => SOk (padding, stride)
  | S f =>
      match args with
      | [] => SOk (padding, stride)
      | ALetter c :: r =>
          if Ascii.eqb c "p"%char then match r with v :: r' => options f r' v stride | [] => SErr EIndex end
          else if Ascii.eqb c "s"%char then match r with v :: r' => options f r' padding v | [] => SErr EIndex end
          else SErr EAssertion
      | _ :: _ => SErr EType
      end
  end.
(** tools.py:402-428 C *)
Definition spec_C (args : list arg) : sres layer_call :=
  let (f, r) := take_activation "rel" args in
  match r with
  | AInt num_filters :: AInt kernel :: r' =>
      do o <- options (length r') r' (AInt 0) (AInt 1);
      let p := arg_value (fst o) in let s := arg_value (snd o) in
      SOk ("Convolution2D", [("num_filters", KInt num_filters); ("kernel_size", KSeq [KInt kernel; KInt kernel]);
                             ("stride", KSeq [s; s]); ("padding", p); ("activation", KStr f)])
  | _ => SErr EAssertion
  end.
(** tools.py:431-457 P *)
Definition spec_P (args : list arg) : sres layer_call :=
  match args with
  | [] => SErr EIndex
  | a :: r =>
      let '(pool, r') := match a with
                         | ALetter c => if Ascii.eqb c "m"%char then ("max", r) else if Ascii.eqb c "a"%char then ("avg", r) else ("max", args)
                         | _ => ("max", args)
                         end in
      match r' with
      | AInt kernel :: r2 =>
          do o <- options (length r2) r2 (AInt 0) (AInt 1);
          let p := arg_value (fst o) in let s := arg_value (snd o) in
          SOk ("Pooling2D", [("kernel_size", KSeq [KInt kernel; KInt kernel]); ("type", KStr pool); ("stride", KSeq [s; s]); ("padding", p)])
      | _ => SErr EAssertion
      end
  end.
(** tools.py:460-469 create_layer *)
Definition create_layer (layer_type : string) (args : list arg) : sres layer_call :=
  if String.eqb layer_type "F" then sized "FullyConnected" "rel" args
  else if String.eqb layer_type "B" then spec_B args
  else if String.eqb layer_type "R" then sized "Recurrent" "tanh" args
  else if String.eqb layer_type "L" then sized "Lstm" "tanh" args
  else if String.eqb layer_type "D" then spec_D args
  else if String.eqb layer_type "C" then spec_C args
  else if String.eqb layer_type "P" then spec_P args
  else SErr EKey.

(** ** get_in_out_layers *)
(** What happens on the construction interface: the creations and wirings, and the keyword
    arguments of the layers in the order of their creation. *)
Record program := mkProg { pg_ops : list op; pg_kwargs : list kwargs }.
Definition tb_value (dims : list Z) : kval := KSeq (KStr "T" :: KStr "B" :: map KInt dims).
(** tools.py:249-250: name or default *)
Definition or_name (name : option string) (default : string) : string :=
  match name with Some n => if String.eqb n "" then default else n | None => default end.
(** tools.py:252-260 *)
Definition projection (out_shape : list Z) (use_conv : option bool) : sres layer_call :=
  if (length out_shape =? 1) || match use_conv with Some b => negb b | None => false end then
    SOk ("FullyConnected", [("size", KSeq (map KInt out_shape)); ("activation", KStr "linear")])
  else if (length out_shape =? 3) || match use_conv with Some b => b | None => false end then
    match out_shape with
    | [] => SErr EIndex
    | _ => SOk ("Convolution2D", [("num_filters", KInt (last out_shape 0%Z)); ("kernel_size", KSeq [KInt 1; KInt 1]);
                                  ("stride", KSeq [KInt 1; KInt 1]); ("padding", KInt 0); ("activation", KStr "linear")])
    end
  else SErr EValue.
(** tools.py:262-269 *)
Definition out_layer_type (task : string) : sres string :=
  if String.eqb task "classification" then SOk "SoftmaxCE"
  else if String.eqb task "multi-label" then SOk "SigmoidCE"
  else if String.eqb task "regression" then SOk "SquaredError"
  else SErr EValue.
(** tools.py:273-276 *)
Definition target_shape (task : string) (out_shape : list Z) : list Z :=
  if String.eqb task "classification" then removelast out_shape ++ [1%Z] else out_shape.
(** tools.py:179-293 get_in_out_layers.  The layers are 0: projection, 1: output layer, 2: Input, then (3: Mask)
    and Loss; returned are the Input and the projection layer. *)
Definition get_in_out_layers (task : string) (in_shape out_shape : list Z) (data_name targets_name : string)
    (projection_name outlayer_name mask_name : option string) (use_conv : option bool) : sres program :=
  let out_name := or_name outlayer_name "Output" in
  let proj_name := or_name projection_name (out_name ++ "_projection") in
  do proj <- projection out_shape use_conv;
  do out_type <- out_layer_type task;
  let shapes := dset targets_name (tb_value (target_shape task out_shape)) (dset data_name (tb_value in_shape) []) in
  let start := [Create (fst proj) (Some proj_name); Create out_type (Some out_name); Wire 0 "default" "default" 1] in
  let loss := [("importance", KNum 1)] in
  match mask_name with
  | None =>
      SOk (mkProg (start ++ [Create "Input" None; Wire 2 targets_name "targets" 1; Create "Loss" None; Wire 1 "loss" "default" 3])
                  [snd proj; []; [("out_shapes", KDict shapes)]; loss])
  | Some mask =>
      SOk (mkProg (start ++ [Create "Input" None; Create "Mask" None; Wire 2 targets_name "targets" 1; Wire 1 "loss" "default" 3;
                             Create "Loss" None; Wire 3 "default" "default" 4; Wire 2 mask "mask" 3])
                  [snd proj; []; [("out_shapes", KDict (dset mask (tb_value [1%Z]) shapes))]; []; loss])
  end.

(** ** create_net_from_spec *)
(** tools.py:578-583: the layers of the spec are created and wired one after the other; [current] is the
    last one, [next] the number of layers created so far. *)
Fixpoint add_layers (items : list layer_call) (current next : nat) : list op * nat :=
  match items with
  | [] => ([], current)
  | (ty, _) :: r =>
      let (ops, last) := add_layers r next (S next) in
      (Create ty None :: Wire current "default" "default" next :: ops, last)
  end.
(** tools.py:563-585: the program run by create_net_from_spec up to Network.from_layer.  Simplified: layers of
    the spec are created after the whole line has been read (an exception leaves no network in both cases). *)
Definition spec_program (task : string) (in_shape out_shape : list Z) (spec : string) (data_name targets_name : string)
    (mask_name : option string) (use_conv : option bool) : sres program :=
  do p <- get_in_out_layers task in_shape out_shape data_name targets_name None None mask_name use_conv;
  do items <- smap (fun it => create_layer (fst it) (snd it)) (read_spec spec);
  let (ops, last) := add_layers items 2 (length (pg_kwargs p)) in
  SOk (mkProg (pg_ops p ++ ops ++ [Wire last "default" "default" 0]) (pg_kwargs p ++ map snd items)).
(** architecture.py:21-44 with the keyword arguments (line 35); [order] is the order in which the set of
    connected layers is iterated. *)
Definition with_kwargs (kws : list kwargs) (order : list nat) (ar : NamesModel.arch) : karch :=
  map (fun p => (fst (snd p), (mkRaw (TypeString (fst (snd (snd p)))) (OutDict (snd (snd (snd p)))), nth (fst p) kws []))) (combine order ar).
Definition architecture_in (p : program) (order : list nat) : option karch :=
  match run (pg_ops p) empty_world with
  | None => None
  | Some w => match generate_architecture_in w order with None => None | Some ar => Some (with_kwargs (pg_kwargs p) order ar) end
  end.
