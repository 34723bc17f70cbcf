(** The forward and backward passes of all layers as sequences of operations on
    shapes: which buffers are accessed, how they are indexed and reshaped, and
    which handler functions are called on arrays of which shapes.  [call_ok]
    states when an operation does not raise: the assertions of
    brainstorm/handlers/debug_handler.py and, where that file has a TODO, the
    requirements of brainstorm/handlers/numpy_handler.py.  The values in the
    arrays are not represented here (they are in the numeric models). *)
From Coq Require Import String List ZArith QArith Bool.
From Verif Require Import PyBase ShapesModel SetupModel.
Import ListNotations.
Open Scope string_scope.
Open Scope list_scope.
Open Scope nat_scope.

Definition shape := list nat.
Definition prod (s : shape) : nat := fold_right Nat.mul 1 s.

(** buffer_structure.py:213-216 get_shape *)
Definition bshape (T B : nat) (b : bstruct) : shape :=
  skipn (2 - buffer_type (bs_shape b)) ([T + Z.to_nat (bs_ctx b); B] ++ map Z.to_nat (features b)).

(** utils.py:150-154, 157-161, 169-170 and mask_layer.py:44-47; array[i];
    array[:-k]; array[1:-1] *)
Definition flat_time (s : shape) : shape := match s with t :: b :: f => (t * b) :: f | _ => s end.
Definition flat_time_features (s : shape) : shape := match s with t :: b :: f => [t * b; prod f] | _ => s end.
Definition flat_but_last (s : shape) : shape := [prod (removelast s); last s 0].
Definition flat_at (k : nat) (s : shape) : shape := [prod (firstn k s); prod (skipn k s)].
Definition row (s : shape) : shape := tl s.
Definition drop_rows (k : nat) (s : shape) : shape := match s with n :: r => (n - k) :: r | [] => [] end.

(** The operations. *)
Inductive call :=
(* access to a buffer by name; unpacking a section of the buffers *)
| VBuffer (s : option shape)
| VUnpack (actual expected : list string)
(* array[i], the assertion of flatten_time and flatten_time_and_features,
   array.reshape(new) *)
| VIndex (s : shape) (i : Z)
| VFlat (s : shape)
| VReshape (s new : shape)
(* dividing by a number computed from the arguments *)
| VDivide (d : option Q)
(* a key of the dictionaries of activation functions *)
| VActivation (name : kval)
(* elementwise functions of arrays, with scalar arguments: copy_to, copy_to_if,
   fill, fill_if, abs_t, sign_t, sqrt_t, log_t, clip_t, add_st, mult_st,
   mult_add_st, add_tt, subtract_tt, mult_tt, divide_tt, mult_add_tt, modulo_tt,
   add_into_if, the activation functions and their derivatives *)
| HEach (name : string) (scalars : list (option Q)) (arrays : list shape)
| HMv (name : string) (m v out : shape)           (* add_mv, subtract_mv, divide_mv, mult_add_mv *)
| HMultMv (m v out : shape)
| HDot (name : string) (a b out : shape) (transa transb : bool)   (* dot_mm, dot_add_mm *)
| HSum (a : shape) (axis : option nat) (out : shape)
| HBroadcast (a : shape) (axis : nat) (out : shape)
| HSoftmax (m out : shape)
| HIndexByV (m v out : shape)
| HBinarize (v out : shape)
| HProbMask (mask : shape) (probability : option Q)
| HMerge (a b out : shape)
| HSplitAdd (x a b : shape)
| HConvForward (inputs weights bias outputs : shape) (padding : Z) (stride : Z * Z)
| HConvBackward (inputs weights : shape) (padding : Z) (stride : Z * Z)
                (in_deltas out_deltas weight_deltas bias_deltas : shape)
| HPoolForward (inputs : shape) (window : Z * Z) (outputs : shape) (padding : Z) (stride : Z * Z) (argmax : option shape)
| HPoolBackward (inputs : shape) (window : Z * Z) (outputs : shape) (padding : Z) (stride : Z * Z) (argmax : option shape)
                (in_deltas out_deltas : shape).

(** base_handler.py:42-72: the keys of the four dictionaries *)
Definition known_activation (name : kval) : Prop :=
  exists s, name = KStr s /\ In s ["sigmoid"; "rel"; "tanh"; "linear"; "el"].

(** debug_handler.py:567-577 assert_shapes_equal *)
Definition all_equal (l : list shape) : Prop := forall s, In s l -> s = hd [] l.
(** debug_handler.py:157-158 and the same lines in the other functions *)
Definition mv_ok (m v : shape) : Prop := exists r c, m = [r; c] /\ (v = [r; 1] \/ v = [1; c]).
(** debug_handler.py:267-279, 285-299 *)
Definition dot_ok (a b out : shape) (transa transb : bool) : Prop :=
  exists a1 a2 b1 b2, a = [a1; a2] /\ b = [b1; b2] /\
    (if transa then a1 else a2) = (if transb then b2 else b1) /\
    out = [if transa then a2 else a1; if transb then b1 else b2].
(** np.sum(a, axis, out=out, keepdims) as called in numpy_handler.py:268-273 *)
Fixpoint remove_nth (n : nat) (s : shape) : shape :=
  match s, n with [], _ => [] | _ :: r, 0 => r | x :: r, S k => x :: remove_nth k r end.
Fixpoint one_at (n : nat) (s : shape) : shape :=
  match s, n with [], _ => [] | _ :: r, 0 => 1 :: r | x :: r, S k => x :: one_at k r end.
Definition sum_ok (a : shape) (axis : option nat) (out : shape) : Prop :=
  match axis with
  | None => out = []
  | Some k => k < length a /\
      out = if (length out =? length a) then one_at k a else remove_nth k a
  end.
(** One spatial dimension of a convolution or pooling: [o] windows of size [k]
    with stride [s] on [n] pixels with [p] pixels of padding on each side. *)
Definition extent_ok (n p k s o : Z) : Prop :=
  (0 < s /\ 0 <= k /\ k <= n + 2 * p /\ o = (n + 2 * p - k) / s + 1)%Z.
Definition geometry (inputs : shape) (kernel : Z * Z) (padding : Z) (stride : Z * Z) (outputs : shape) : Prop :=
  (0 <= padding)%Z /\
  exists n rows cols maps oh ow f, inputs = [n; rows; cols; maps] /\ outputs = [n; oh; ow; f] /\
    extent_ok (Z.of_nat rows) padding (fst kernel) (fst stride) (Z.of_nat oh) /\
    extent_ok (Z.of_nat cols) padding (snd kernel) (snd stride) (Z.of_nat ow).
Definition zpair (a b : nat) : Z * Z := (Z.of_nat a, Z.of_nat b).

(** When an operation does not raise.  HSoftmax: np.amax needs at least one
    column (numpy_handler.py:293); HMerge and HSplitAdd: reshape(-1, n) needs
    n > 0 (222-225, 252-254), the other dimensions have to agree.  The
    assertions of binarize_v on the values (debug_handler.py:211-212) are not
    represented. *)
Definition call_ok (c : call) : Prop :=
  match c with
  | VBuffer s => s <> None
  | VUnpack actual expected => actual = expected
  | VIndex s i => exists n r, s = n :: r /\ (- Z.of_nat n <= i < Z.of_nat n)%Z
  | VFlat s => 3 <= length s
  | VReshape s new => prod s = prod new
  | VDivide d => exists q, d = Some q /\ ~ (q == 0)%Q
  | VActivation name => known_activation name
  | HEach _ scalars arrays => (forall s, In s scalars -> s <> None) /\ all_equal arrays
  | HMv _ m v out => all_equal [m; out] /\ mv_ok m v
  | HMultMv m v out => all_equal [m; out] /\ length m = 2 /\ (mv_ok m v \/ v = m)
  | HDot _ a b out ta tb => dot_ok a b out ta tb
  | HSum a axis out => sum_ok a axis out
  | HBroadcast a axis out => axis < length out /\ nth axis a 0 = 1 /\ a = firstn axis out ++ [1] ++ skipn (S axis) out
  | HSoftmax m out => all_equal [m; out] /\ exists r c, m = [r; c] /\ 0 < c
  | HIndexByV m v out => all_equal [v; out] /\ exists r c, m = [r; c] /\ v = [r; 1]
  | HBinarize v out => exists r c, out = [r; c] /\ v = [r; 1]
  | HProbMask _ p => exists q, p = Some q /\ (0 <= q <= 1)%Q
  | HMerge a b out =>
      exists l p q, a = l ++ [p] /\ b = l ++ [q] /\ out = l ++ [p + q] /\ 0 < p /\ 0 < q
  | HSplitAdd x a b =>
      exists l p q, a = l ++ [p] /\ b = l ++ [q] /\ x = l ++ [p + q] /\ 0 < p /\ 0 < q
  | HConvForward inputs weights bias outputs padding stride =>
      exists nf kh kw maps, weights = [nf; kh; kw; maps] /\ bias = [nf] /\
        nth 3 inputs 0 = maps /\ nth 3 outputs 0 = nf /\
        geometry inputs (zpair kh kw) padding stride outputs
  | HConvBackward inputs weights padding stride in_deltas out_deltas weight_deltas bias_deltas =>
      all_equal [inputs; in_deltas] /\ all_equal [weights; weight_deltas] /\
      exists nf kh kw maps, weights = [nf; kh; kw; maps] /\ bias_deltas = [nf] /\
        nth 3 inputs 0 = maps /\ nth 3 out_deltas 0 = nf /\
        geometry inputs (zpair kh kw) padding stride out_deltas
  | HPoolForward inputs window outputs padding stride argmax =>
      geometry inputs window padding stride outputs /\ nth 3 inputs 0 = nth 3 outputs 0 /\
      (argmax = None \/ argmax = Some outputs)
  | HPoolBackward inputs window outputs padding stride argmax in_deltas out_deltas =>
      geometry inputs window padding stride outputs /\ nth 3 inputs 0 = nth 3 outputs 0 /\
      (argmax = None \/ argmax = Some outputs) /\
      all_equal [inputs; in_deltas] /\ all_equal [outputs; out_deltas]
  end.

Section Passes.
  Variable l : linst.
  Variables T B : nat.

  (** buffers.inputs.x and so on: the shapes of the views.  The deltas and
      gradients have the shapes of the forward buffers (layout.py:258-281). *)
  Definition find_shape (d : list (string * bstruct)) (n : string) : option shape :=
    option_map (bshape T B) (dget n d).
  Definition sh (d : list (string * bstruct)) (n : string) : shape :=
    match find_shape d n with Some s => s | None => [] end.
  Definition access (d : list (string * bstruct)) (names : list string) : list call :=
    map (fun n => VBuffer (find_shape d n)) names.
  Definition inp := sh (li_in l).
  Definition outp := sh (li_out l).
  Definition par := sh (li_params l).
  Definition int := sh (li_int l).
  Definition unpack (d : list (string * bstruct)) (names : list string) : list call :=
    [VUnpack (map fst d) names].

  Definition num (q : Q) : option Q := Some q.
  Definition cfg_number : option Q := as_number (cf_scalar (li_cfg l)).
  Definition activation : kval := cf_act (li_cfg l).
  Definition each (name : string) (arrays : list shape) : call := HEach name [] arrays.
  Definition scaled (name : string) (s : option Q) (arrays : list shape) : call := HEach name [s] arrays.
  (** _h.act_func[...](x, y), _h.act_func_deriv[...](x, y, dy, dx),
      _h.inplace_act_func[...](y), _h.inplace_act_func_deriv[...](y, dy)
      (base_handler.py:42-72; 'linear' copies or does nothing) *)
  Definition act (x y : shape) : list call := [VActivation activation; each "act_func" [x; y]].
  Definition act_deriv (x y dy dx : shape) : list call :=
    [VActivation activation; each "act_func_deriv" [x; y; dy; dx]].
  Definition inplace_act (y : shape) : list call := [VActivation activation; each "inplace_act_func" [y; y]].
  Definition inplace_act_deriv (y dy : shape) : list call :=
    [VActivation activation; each "inplace_act_func_deriv" [y; y; dy; dy]].
  Definition ft (s : shape) : list call := [VFlat s; VReshape s (flat_time s)].
  Definition ftf (s : shape) : list call := [VFlat s; VReshape s (flat_time_features s)].
  Definition fbl (s : shape) : list call := [VReshape s (flat_but_last s)].
  (** v.reshape((1, n)) *)
  Definition as_row (s : shape) (n : nat) : list call := [VReshape s [1; n]].
  (** x[i], as a check that the index exists *)
  Definition at_ (s : shape) (i : Z) : list call := [VIndex s i].

  (** batch_normalization_layer.py:54-105 *)
  Definition fwd_batch_norm (training : bool) : list call :=
    let gamma := par "gamma" in let mu := par "mu" in let sigma := par "sigma" in
    let sigma_b := int "sigma_b" in
    let inputs := flat_but_last (inp "default") in
    let centered := flat_but_last (int "centered") in
    let x_hat := flat_but_last (int "x_hat") in
    let out := flat_but_last (outp "default") in
    let m := Some (inject_Z (Z.of_nat (hd 0 inputs))) in
    let decay := cfg_number in
    let as_v s := [1; prod s] in
    unpack (li_int l) ["sigma_b"; "centered"; "x_hat"] ++ unpack (li_params l) ["gamma"; "beta"; "mu"; "sigma"] ++
    access (li_in l) ["default"] ++ access (li_out l) ["default"] ++
    fbl (inp "default") ++ fbl (int "centered") ++ fbl (int "x_hat") ++ fbl (outp "default") ++
    (if training then
       [HSum inputs (Some 0) sigma_b; VDivide m; scaled "mult_st" (num (-1)) [sigma_b; sigma_b];
        scaled "mult_st" decay [mu; mu]; scaled "mult_add_st" decay [sigma_b; mu]] else []) ++
    (let v := if training then sigma_b else mu in
     [VReshape v (as_v v); HMv "add_mv" inputs (as_v v) centered]) ++
    (if training then
       [each "mult_tt" [centered; centered; x_hat]; HSum x_hat (Some 0) sigma_b; VDivide m;
        scaled "mult_st" (num 1) [sigma_b; sigma_b];
        scaled "add_st" (as_number (cf_epsilon (li_cfg l))) [sigma_b; sigma_b];
        each "sqrt_t" [sigma_b; sigma_b]; scaled "mult_st" decay [sigma; sigma];
        scaled "mult_add_st" decay [sigma_b; sigma]] else []) ++
    (let v := if training then sigma_b else sigma in
     [VReshape v (as_v v); HMv "divide_mv" centered (as_v v) x_hat]) ++
    [VReshape gamma (as_v gamma); HMultMv x_hat (as_v gamma) out;
     VReshape (par "beta") (as_v (par "beta")); HMv "add_mv" out (as_v (par "beta")) out].
  (** batch_normalization_layer.py:107-152 *)
  Definition bwd_batch_norm : list call :=
    let gamma := par "gamma" in let sigma_b := int "sigma_b" in
    let dgamma := par "gamma" in let dbeta := par "beta" in
    let x_hat := flat_but_last (int "x_hat") in
    let outdeltas := flat_but_last (outp "default") in
    let indeltas := flat_but_last (inp "default") in
    let m := Some (inject_Z (Z.of_nat (hd 0 outdeltas))) in
    let big := x_hat in let small := gamma in
    unpack (li_int l) ["sigma_b"; "centered"; "x_hat"] ++ access (li_params l) ["gamma"; "beta"] ++
    access (li_out l) ["default"] ++ access (li_in l) ["default"] ++
    fbl (int "x_hat") ++ fbl (outp "default") ++ fbl (inp "default") ++
    [each "mult_tt" [outdeltas; x_hat; big]; HSum big (Some 0) small; each "add_tt" [small; dgamma; dgamma];
     VDivide m; scaled "mult_st" (num 1) [small; small];
     VReshape small [1; prod gamma]; HMultMv x_hat [1; prod gamma] big;
     HSum outdeltas (Some 0) small; each "add_tt" [small; dbeta; dbeta];
     VDivide m; scaled "mult_st" (num 1) [small; small];
     each "subtract_tt" [outdeltas; big; big]; VReshape small [1; prod dbeta];
     HMv "subtract_mv" big [1; prod dbeta] big;
     each "divide_tt" [gamma; sigma_b; small]; VReshape small [1; prod small];
     HMultMv big [1; prod small] big; each "add_tt" [big; indeltas; indeltas]].

  (** binomial_cross_entropy_layer.py:59-86 *)
  Definition fwd_binomial : list call :=
    let y := inp "default" in let t := inp "targets" in
    let cee := int "cee" in let tmp := cee in let cee_sum := outp "default" in
    access (li_in l) ["default"; "targets"] ++ access (li_int l) ["cee"] ++ access (li_out l) ["default"] ++
    [each "subtract_tt" [tmp; y; cee]; each "subtract_tt" [tmp; t; tmp]; each "clip_t" [cee; cee];
     each "log_t" [cee; cee]; each "mult_tt" [tmp; cee; tmp]; each "clip_t" [y; cee]; each "log_t" [cee; cee];
     each "mult_tt" [t; cee; cee]; each "add_tt" [tmp; cee; cee]] ++
    ftf cee ++ ft cee_sum ++
    [HSum (flat_time_features cee) (Some 1) (flat_time cee_sum);
     scaled "mult_st" (num (-1)) [flat_time cee_sum; flat_time cee_sum]].
  (** binomial_cross_entropy_layer.py:88-116 *)
  Definition bwd_binomial : list call :=
    let ceed_sum := outp "default" in let ceed := int "ceed" in let tmp := ceed in
    let y := inp "default" in let t := inp "targets" in let yd := inp "default" in
    access (li_out l) ["default"] ++ access (li_int l) ["ceed"] ++ access (li_in l) ["default"; "targets"] ++
    [each "mult_tt" [y; y; ceed]; each "subtract_tt" [y; ceed; ceed]; each "clip_t" [ceed; ceed];
     each "subtract_tt" [y; t; tmp]; each "divide_tt" [tmp; ceed; ceed];
     HBroadcast ceed_sum 2 tmp; each "mult_tt" [ceed; tmp; ceed]; each "add_tt" [ceed; yd; yd]].

  (** self.size of the recurrent layers: the feature size of the output *)
  Definition size : nat := match dget "default" (li_out l) with Some b => Z.to_nat (fsize b) | None => 0 end.

  (** recurrent_layer.py:51-67 and, with [timing], clockwork_layer.py:55-79 *)
  Definition recurrent_names (timing : bool) : list string :=
    ["W"; "R"; "bias"] ++ if timing then ["timing"] else [].
  Definition fwd_recurrent (timing : bool) : list call :=
    let W := par "W" in let R := par "R" in let bias := par "bias" in let tm := par "timing" in
    let inputs := inp "default" in let outputs := outp "default" in let Ha := int "Ha" in
    let flat_H := flat_time (drop_rows 1 Ha) in
    unpack (li_params l) (recurrent_names timing) ++
    access (li_in l) ["default"] ++ access (li_out l) ["default"] ++ access (li_int l) ["Ha"] ++
    ftf inputs ++ ft (drop_rows 1 Ha) ++
    [HDot "dot_mm" (flat_time_features inputs) W flat_H false true] ++
    as_row bias size ++ [HMv "add_mv" flat_H [1; size] flat_H] ++
    (if timing then at_ outputs 0 else []) ++
    flat_map (fun t : nat =>
      let t' := Z.of_nat t in
      at_ outputs (t' - 1) ++ at_ Ha t' ++ at_ outputs t' ++
      [HDot "dot_add_mm" (row outputs) R (row Ha) false true] ++ act (row Ha) (row outputs) ++
      (if timing && (0 <? t)
       then [scaled "fill" (num (inject_Z t')) [tm]; each "modulo_tt" [tm; tm; tm]] ++
            as_row tm (hd 0 tm) ++
            [HBroadcast [1; hd 0 tm] 0 (row outputs); each "copy_to_if" [row outputs; row outputs; row outputs]]
       else [])) (seq 0 (hd 0 inputs)).
  (** recurrent_layer.py:69-102, clockwork_layer.py:81-122 *)
  Definition bwd_recurrent (timing : bool) : list call :=
    let W := par "W" in let R := par "R" in let dW := par "W" in let dR := par "R" in
    let dbias := par "bias" in let tm := par "timing" in
    let inputs := inp "default" in let outputs := outp "default" in
    let dinputs := inp "default" in let doutputs := outp "default" in
    let Ha := int "Ha" in let dHa := int "dHa" in let dHb := int "dHb" in
    let T' := (Z.of_nat (hd 0%nat inputs) - 1)%Z in
    let fdHa := flat_time (drop_rows 1 dHa) in
    unpack (li_params l) (recurrent_names timing) ++
    access (li_in l) ["default"] ++ access (li_out l) ["default"] ++ unpack (li_int l) ["Ha"; "dHa"; "dHb"] ++
    (if timing then at_ outputs 0 else []) ++
    [each "copy_to" [doutputs; dHb]] ++
    at_ Ha T' ++ at_ outputs T' ++ at_ dHb T' ++ at_ dHa T' ++ act_deriv (row Ha) (row outputs) (row dHb) (row dHa) ++
    flat_map (fun t : nat =>
      let t' := Z.of_nat t in
      (if timing
       then [scaled "fill" (num (inject_Z (t' + 1))) [tm]; each "modulo_tt" [tm; tm; tm]] ++
            as_row tm (hd 0 tm) ++ [HBroadcast [1; hd 0 tm] 0 (row outputs)] ++
            at_ dHb (t' + 1) ++ at_ dHb t' ++ at_ dHa (t' + 1) ++
            [each "add_into_if" [row dHb; row dHb; row outputs]; scaled "fill_if" (num 0) [row dHa; row outputs]]
       else []) ++
      at_ dHa (t' + 1) ++ at_ dHb t' ++ [HDot "dot_add_mm" (row dHa) R (row dHb) false false] ++
      at_ Ha t' ++ at_ outputs t' ++ at_ dHa t' ++ act_deriv (row Ha) (row outputs) (row dHb) (row dHa))
      (rev (seq 0 (hd 0 inputs - 1))) ++
    ftf inputs ++ ftf dinputs ++ ft (drop_rows 1 dHa) ++
    [HDot "dot_add_mm" fdHa W (flat_time_features dinputs) false false;
     HDot "dot_add_mm" fdHa (flat_time_features inputs) dW true false;
     HSum fdHa (Some 0) dbias; each "add_tt" [dbias; dbias; dbias]] ++
    ft (drop_rows 2 outputs) ++ ft (drop_rows 2 dHa) ++
    [HDot "dot_add_mm" (flat_time (drop_rows 2 dHa)) (flat_time (drop_rows 2 outputs)) dR true false] ++
    at_ dHa 0 ++ at_ outputs (-1) ++
    [HDot "dot_add_mm" (row dHa) (row outputs) dR true false].

  (** lstm_layer.py:90-145 and, with [timing], clockwork_lstm_layer.py:97-167 *)
  Definition lstm_param_names (timing : bool) : list string :=
    ["Wz"; "Wi"; "Wf"; "Wo"; "pi"; "pf"; "po"; "Rz"; "Ri"; "Rf"; "Ro"; "bz"; "bi"; "bf"; "bo"]
    ++ if timing then ["timing"] else [].
  Definition lstm_int_names : list string :=
    ["Za"; "Zb"; "Ia"; "Ib"; "Fa"; "Fb"; "Oa"; "Ob"; "Ca"; "Cb";
     "dZa"; "dZb"; "dIa"; "dIb"; "dFa"; "dFb"; "dOa"; "dOb"; "dCa"; "dCb"].
  (** x[i] for several arrays *)
  Definition ats (arrays : list shape) (i : Z) : list call := map (fun s => VIndex s i) arrays.
  (** fill(tmp, t); modulo_tt; broadcast_t into cond *)
  Definition clock (tm cond : shape) (t : Z) : list call :=
    [scaled "fill" (num (inject_Z t)) [tm]; each "modulo_tt" [tm; tm; tm]] ++
    as_row tm (hd 0 tm) ++ [HBroadcast [1; hd 0 tm] 0 cond].
  Definition fwd_lstm (timing : bool) : list call :=
    let x := inp "default" in let y := outp "default" in let tm := par "timing" in
    let Za := int "Za" in let Zb := int "Zb" in let Ia := int "Ia" in let Ib := int "Ib" in
    let Fa := int "Fa" in let Fb := int "Fb" in let Oa := int "Oa" in let Ob := int "Ob" in
    let Ca := int "Ca" in let Cb := int "Cb" in
    unpack (li_params l) (lstm_param_names timing) ++ unpack (li_int l) lstm_int_names ++
    access (li_in l) ["default"] ++ access (li_out l) ["default"] ++
    (if timing then at_ y 0 else []) ++
    ftf x ++ ft (drop_rows 1 Za) ++ ft (drop_rows 1 Ia) ++ ft (drop_rows 1 Fa) ++ ft (drop_rows 1 Oa) ++
    [HDot "dot_mm" (flat_time_features x) (par "Wz") (flat_time (drop_rows 1 Za)) false true;
     HDot "dot_mm" (flat_time_features x) (par "Wi") (flat_time (drop_rows 1 Ia)) false true;
     HDot "dot_mm" (flat_time_features x) (par "Wf") (flat_time (drop_rows 1 Fa)) false true;
     HDot "dot_mm" (flat_time_features x) (par "Wo") (flat_time (drop_rows 1 Oa)) false true] ++
    flat_map (fun t : nat =>
      let t' := Z.of_nat t in
      ats [y; Ca] (t' - 1) ++ ats [y; Za; Zb; Ia; Ib; Fa; Fb; Oa; Ob; Ca; Cb] t' ++
      [HDot "dot_add_mm" (row y) (par "Rz") (row Za) false true] ++
      as_row (par "bz") size ++ [HMv "add_mv" (row Za) [1; size] (row Za)] ++ act (row Za) (row Zb) ++
      [HDot "dot_add_mm" (row y) (par "Ri") (row Ia) false true; HMv "mult_add_mv" (row Ca) (par "pi") (row Ia)] ++
      as_row (par "bi") size ++ [HMv "add_mv" (row Ia) [1; size] (row Ia); each "sigmoid" [row Ia; row Ib];
       HDot "dot_add_mm" (row y) (par "Rf") (row Fa) false true; HMv "mult_add_mv" (row Ca) (par "pf") (row Fa)] ++
      as_row (par "bf") size ++ [HMv "add_mv" (row Fa) [1; size] (row Fa); each "sigmoid" [row Fa; row Fb];
       each "mult_tt" [row Ib; row Zb; row Ca]; each "mult_add_tt" [row Fb; row Ca; row Ca];
       HDot "dot_add_mm" (row y) (par "Ro") (row Oa) false true; HMv "mult_add_mv" (row Ca) (par "po") (row Oa)] ++
      as_row (par "bo") size ++ [HMv "add_mv" (row Oa) [1; size] (row Oa); each "sigmoid" [row Oa; row Ob]] ++
      act (row Ca) (row Cb) ++ [each "mult_tt" [row Ob; row Cb; row y]] ++
      (if timing && (0 <? t)
       then clock tm (row y) t' ++
            [each "copy_to_if" [row Ca; row Ca; row y]; each "copy_to_if" [row y; row y; row y]]
       else [])) (seq 0 (hd 0 x)).

  (** lstm_layer.py:147-278, clockwork_lstm_layer.py:169-326 *)
  Definition bwd_lstm (timing : bool) : list call :=
    let x := inp "default" in let dx := inp "default" in let y := outp "default" in
    let deltas := outp "default" in let dy := y in let tm := par "timing" in
    let Za := int "Za" in let Zb := int "Zb" in let Ia := int "Ia" in let Ib := int "Ib" in
    let Fa := int "Fa" in let Fb := int "Fb" in let Oa := int "Oa" in let Ob := int "Ob" in
    let Ca := int "Ca" in let Cb := int "Cb" in
    let dZa := int "dZa" in let dZb := int "dZb" in let dIa := int "dIa" in let dIb := int "dIb" in
    let dFa := int "dFa" in let dFb := int "dFb" in let dOa := int "dOa" in let dOb := int "dOb" in
    let dCa := int "dCa" in let dCb := int "dCb" in let cond := row y in
    let dbias_tmp := par "bz" in let dWc_tmp := par "po" in
    let f1 s := flat_time (drop_rows 1 s) in let f2 s := flat_time (drop_rows 2 s) in
    let dWcif := row dIa in
    unpack (li_params l) (lstm_param_names timing) ++ unpack (li_int l) lstm_int_names ++
    access (li_in l) ["default"] ++ access (li_out l) ["default"] ++
    [scaled "fill" (num 0) [dCa]] ++ (if timing then at_ y 0 else []) ++
    flat_map (fun t : nat =>
      let t' := Z.of_nat t in
      ats [dIa; dFa; dOa; dZa; dCa; Fb] (t' + 1) ++ ats [Ca] (t' - 1) ++
      ats [deltas; dy; Za; Zb; Ia; Ib; Fa; Fb; Oa; Ob; Ca; Cb; dZa; dZb; dIa; dIb; dFa; dFb; dOa; dOb; dCa; dCb] t' ++
      (if timing then [each "add_tt" [row dy; row deltas; row dy]] ++ clock tm cond t'
       else [each "copy_to" [row deltas; row dy]]) ++
      [HDot "dot_add_mm" (row dIa) (par "Ri") (row dy) false false;
       HDot "dot_add_mm" (row dFa) (par "Rf") (row dy) false false;
       HDot "dot_add_mm" (row dOa) (par "Ro") (row dy) false false;
       HDot "dot_add_mm" (row dZa) (par "Rz") (row dy) false false;
       HMv "mult_add_mv" (row dIa) (par "pi") (row dCa); HMv "mult_add_mv" (row dFa) (par "pf") (row dCa);
       each "mult_tt" [row dy; row Cb; row dOb]] ++
      (if timing then [scaled "fill_if" (num 0) [row dOb; cond]] else []) ++
      [each "sigmoid_deriv" [row Oa; row Ob; row dOb; row dOa]; HMv "mult_add_mv" (row dOa) (par "po") (row dCa);
       each "mult_tt" [row dy; row Ob; row dCb]] ++ act_deriv (row Ca) (row Cb) (row dCb) (row dCb) ++
      (if timing then [scaled "fill_if" (num 0) [row dCb; cond]] else []) ++
      [each "add_tt" [row dCa; row dCb; row dCa]; each "mult_add_tt" [row dCa; row Fb; row dCa];
       each "mult_tt" [row dCa; row Ca; row dFb]; each "sigmoid_deriv" [row Fa; row Fb; row dFb; row dFa];
       each "mult_tt" [row dCa; row Zb; row dIb]; each "sigmoid_deriv" [row Ia; row Ib; row dIb; row dIa];
       each "mult_tt" [row dCa; row Ib; row dZb]] ++ act_deriv (row Za) (row Zb) (row dZb) (row dZa) ++
      (if timing then
         ats [dy; dCa] (t' - 1) ++
         [each "add_into_if" [row dy; row dy; cond]; each "add_into_if" [row dCa; row dCa; cond];
          scaled "fill_if" (num 0) [row dIa; cond]; scaled "fill_if" (num 0) [row dFa; cond];
          scaled "fill_if" (num 0) [row dZa; cond]; scaled "fill_if" (num 0) [row Fb; cond]]
       else [])) (rev (seq 0 (hd 0 x))) ++
    ftf x ++ ftf dx ++ flat_map (fun s => ft (drop_rows 1 s)) [dIa; dFa; dOa; dZa] ++
    [HDot "dot_add_mm" (f1 dIa) (par "Wi") (flat_time_features dx) false false;
     HDot "dot_add_mm" (f1 dFa) (par "Wf") (flat_time_features dx) false false;
     HDot "dot_add_mm" (f1 dOa) (par "Wo") (flat_time_features dx) false false;
     HDot "dot_add_mm" (f1 dZa) (par "Wz") (flat_time_features dx) false false;
     HDot "dot_add_mm" (f1 dIa) (flat_time_features x) (par "Wi") true false;
     HDot "dot_add_mm" (f1 dFa) (flat_time_features x) (par "Wf") true false;
     HDot "dot_add_mm" (f1 dOa) (flat_time_features x) (par "Wo") true false;
     HDot "dot_add_mm" (f1 dZa) (flat_time_features x) (par "Wz") true false;
     HSum (f1 dIa) (Some 0) dbias_tmp; each "add_tt" [par "bi"; dbias_tmp; par "bi"];
     HSum (f1 dFa) (Some 0) dbias_tmp; each "add_tt" [par "bf"; dbias_tmp; par "bf"];
     HSum (f1 dOa) (Some 0) dbias_tmp; each "add_tt" [par "bo"; dbias_tmp; par "bo"];
     HSum (f1 dZa) (Some 0) dbias_tmp; each "add_tt" [par "bz"; dbias_tmp; par "bz"]] ++
    ft (drop_rows 2 y) ++ ft (drop_rows 2 Ca) ++ ft (drop_rows 1 Ca) ++
    [each "mult_tt" [f1 Ca; f1 dOa; f1 Ca]; HSum (f1 Ca) (Some 0) dWc_tmp; each "add_tt" [par "po"; dWc_tmp; par "po"]] ++
    flat_map (fun s => ft (drop_rows 2 s)) [dIa; dFa; dOa; dZa] ++
    [HDot "dot_add_mm" (f2 dIa) (f2 y) (par "Ri") true false;
     HDot "dot_add_mm" (f2 dFa) (f2 y) (par "Rf") true false;
     HDot "dot_add_mm" (f2 dOa) (f2 y) (par "Ro") true false;
     HDot "dot_add_mm" (f2 dZa) (f2 y) (par "Rz") true false] ++
    ats [dIa; dFa; dOa; dZa] 0 ++ ats [dy; dCa] (-1) ++
    [HDot "dot_add_mm" (row dIa) (row dy) (par "Ri") true false;
     HDot "dot_add_mm" (row dFa) (row dy) (par "Rf") true false;
     HDot "dot_add_mm" (row dOa) (row dy) (par "Ro") true false;
     HDot "dot_add_mm" (row dZa) (row dy) (par "Rz") true false;
     each "mult_tt" [f2 Ca; f2 dIa; f2 Ca]; HSum (f2 Ca) (Some 0) dWc_tmp; each "add_tt" [par "pi"; dWc_tmp; par "pi"];
     each "mult_tt" [f2 Ca; f2 dFa; f2 Ca]; HSum (f2 Ca) (Some 0) dWc_tmp; each "add_tt" [par "pf"; dWc_tmp; par "pf"];
     each "mult_tt" [row dCa; row dIa; dWcif]; HSum dWcif (Some 0) dWc_tmp; each "add_tt" [par "pi"; dWc_tmp; par "pi"];
     each "mult_tt" [row dCa; row dIa; dWcif]; HSum dWcif (Some 0) dWc_tmp; each "add_tt" [par "pf"; dWc_tmp; par "pf"]].

  (** convolution_layer_2d.py:78-92 *)
  Definition fwd_conv : list call :=
    unpack (li_params l) ["W"; "bias"] ++ access (li_in l) ["default"] ++ access (li_out l) ["default"] ++
    ft (inp "default") ++ ft (outp "default") ++
    [HConvForward (flat_time (inp "default")) (par "W") (par "bias") (flat_time (outp "default"))
       (cf_padding (li_cfg l)) (cf_stride (li_cfg l))] ++ inplace_act (outp "default").
  (** convolution_layer_2d.py:94-112 *)
  Definition bwd_conv : list call :=
    unpack (li_params l) ["W"; "bias"] ++ access (li_in l) ["default"] ++ access (li_out l) ["default"] ++
    ft (inp "default") ++ ft (inp "default") ++ ft (outp "default") ++
    inplace_act_deriv (outp "default") (outp "default") ++
    [HConvBackward (flat_time (inp "default")) (par "W") (cf_padding (li_cfg l)) (cf_stride (li_cfg l))
       (flat_time (inp "default")) (flat_time (outp "default")) (par "W") (par "bias")].
  (** pooling_layer_2d.py:74-93 *)
  Definition pool_argmax : list call * option shape :=
    if cf_max (li_cfg l)
    then (access (li_int l) ["argmax"] ++ ft (int "argmax"), Some (flat_time (int "argmax")))
    else ([], None).
  Definition fwd_pool : list call :=
    access (li_in l) ["default"] ++ access (li_out l) ["default"] ++ ft (inp "default") ++ ft (outp "default") ++
    fst pool_argmax ++
    [HPoolForward (flat_time (inp "default")) (cf_kernel (li_cfg l)) (flat_time (outp "default"))
       (cf_padding (li_cfg l)) (cf_stride (li_cfg l)) (snd pool_argmax)].
  (** pooling_layer_2d.py:95-121 *)
  Definition bwd_pool : list call :=
    access (li_in l) ["default"] ++ access (li_out l) ["default"] ++ ft (inp "default") ++ ft (inp "default") ++
    ft (outp "default") ++ ft (outp "default") ++ fst pool_argmax ++
    [HPoolBackward (flat_time (inp "default")) (cf_kernel (li_cfg l)) (flat_time (outp "default"))
       (cf_padding (li_cfg l)) (cf_stride (li_cfg l)) (snd pool_argmax)
       (flat_time (inp "default")) (flat_time (outp "default"))].

  Definition access_default : list call := access (li_in l) ["default"] ++ access (li_out l) ["default"].
  (** deltas_scaling_layer.py:37-43, noop_layer.py:28-34 *)
  Definition fwd_copy : list call := access_default ++ [each "copy_to" [inp "default"; outp "default"]].
  Definition bwd_deltas_scaling : list call :=
    access_default ++ [scaled "mult_add_st" cfg_number [outp "default"; inp "default"]].
  Definition bwd_noop : list call :=
    access_default ++ [each "add_tt" [outp "default"; inp "default"; inp "default"]].
  (** dropout_layer.py:36-52 *)
  Definition keep : option Q := option_map (fun p => 1 - p)%Q cfg_number.
  Definition fwd_dropout (training : bool) : list call :=
    access_default ++
    if training then
      access (li_int l) ["mask"] ++
      [HProbMask (int "mask") keep; each "mult_tt" [inp "default"; int "mask"; outp "default"];
       VDivide keep; scaled "mult_st" keep [outp "default"; outp "default"]]
    else [each "copy_to" [inp "default"; outp "default"]].
  Definition bwd_dropout : list call :=
    access_default ++ access (li_int l) ["mask"] ++
    [each "mult_add_tt" [outp "default"; int "mask"; inp "default"]].
  (** elementwise_layer.py:30-40 *)
  Definition fwd_elementwise : list call := access_default ++ act (inp "default") (outp "default").
  Definition bwd_elementwise : list call :=
    access_default ++ act_deriv (inp "default") (outp "default") (outp "default") (inp "default") ++
    [each "add_tt" [inp "default"; inp "default"; inp "default"]].
  (** fully_connected_layer.py:52-78 *)
  Definition fwd_fully_connected : list call :=
    let W := par "W" in let bias := par "bias" in
    let inputs := flat_time_features (inp "default") in let outputs := flat_time_features (outp "default") in
    unpack (li_params l) ["W"; "bias"] ++ access_default ++ ftf (inp "default") ++ ftf (outp "default") ++
    [HDot "dot_mm" inputs W outputs false true] ++ as_row bias (hd 0 bias) ++
    [HMv "add_mv" outputs [1; hd 0 bias] outputs] ++ inplace_act outputs.
  Definition bwd_fully_connected : list call :=
    let W := par "W" in let bias := par "bias" in
    let inputs := flat_time_features (inp "default") in let outputs := flat_time_features (outp "default") in
    unpack (li_params l) ["W"; "bias"] ++ access_default ++
    ftf (inp "default") ++ ftf (outp "default") ++ ftf (inp "default") ++ ftf (outp "default") ++
    inplace_act_deriv outputs outputs ++
    [HDot "dot_add_mm" outputs W inputs false false; HDot "dot_mm" outputs inputs W true false;
     HSum outputs (Some 0) bias].
  (** highway_layer.py:40-71 *)
  Definition access_highway : list call :=
    access (li_in l) ["x"; "H"; "T"] ++ access (li_out l) ["default"].
  Definition fwd_highway : list call :=
    let x := inp "x" in let H := inp "H" in let TT := inp "T" in let y := outp "default" in let tmp := x in
    access_highway ++
    [each "subtract_tt" [H; x; tmp]; each "mult_tt" [TT; tmp; tmp]; each "add_tt" [tmp; x; y]].
  Definition bwd_highway : list call :=
    let x := inp "x" in let H := inp "H" in let TT := inp "T" in let dy := outp "default" in let tmp := x in
    access_highway ++
    [each "subtract_tt" [tmp; TT; tmp]; each "mult_add_tt" [tmp; dy; x]; each "mult_add_tt" [TT; dy; H];
     each "subtract_tt" [H; x; tmp]; each "mult_add_tt" [tmp; dy; TT]].
  (** l1_decay.py:35-69, l2_decay.py:37-71 *)
  Definition access_decay : list call :=
    access (li_in l) ["default"] ++ access (li_int l) ["tmp"] ++ access (li_out l) ["loss"] ++
    ftf (inp "default") ++ ftf (int "tmp") ++ ft (outp "loss").
  Definition fwd_decay (l2 : bool) : list call :=
    let x := flat_time_features (inp "default") in let tmp := flat_time_features (int "tmp") in
    access_decay ++
    (if l2 then [each "mult_tt" [x; x; tmp]; scaled "mult_st" (num (1#2)) [tmp; tmp]] else [each "abs_t" [x; tmp]]) ++
    [HSum tmp (Some 1) (flat_time (outp "loss"))].
  Definition bwd_decay (l2 : bool) : list call :=
    let x := flat_time_features (inp "default") in let tmp := flat_time_features (int "tmp") in
    access_decay ++ ftf (inp "default") ++
    (if l2 then [HMultMv x (flat_time (outp "loss")) tmp]
     else [each "sign_t" [x; tmp]; HMultMv tmp (flat_time (outp "loss")) tmp]) ++
    [each "add_tt" [tmp; x; x]].
  (** loss_layer.py:38-58; the batch size is shape[1] if the input scales with
      time, shape[0] if it scales with the batch size, else 1.0. *)
  Definition batch_size : option Q :=
    match dget "default" (li_in l) with
    | None => None
    | Some b => match buffer_type (bs_shape b) with
                | 2 => Some (inject_Z (Z.of_nat (nth 1 (inp "default") 0)))
                | 1 => Some (inject_Z (Z.of_nat (nth 0 (inp "default") 0)))
                | _ => Some 1%Q
                end
    end.
  Definition fwd_loss : list call :=
    access (li_in l) ["default"] ++ access (li_out l) ["loss"] ++
    [VReshape (outp "loss") []; HSum (inp "default") None []; VDivide batch_size;
     scaled "mult_st" cfg_number [outp "loss"; outp "loss"]].
  Definition bwd_loss : list call :=
    access (li_in l) ["default"] ++
    [VDivide batch_size; scaled "add_st" cfg_number [inp "default"; inp "default"]].
  (** mask_layer.py:44-67 *)
  Definition fm (s : shape) : list call := [VReshape s (flat_at (cf_flatten (li_cfg l)) s)].
  Definition fwd_mask : list call :=
    let k := cf_flatten (li_cfg l) in
    access (li_in l) ["default"; "mask"] ++ access (li_out l) ["default"] ++
    fm (inp "default") ++ fm (inp "mask") ++ fm (outp "default") ++
    [HMultMv (flat_at k (inp "default")) (flat_at k (inp "mask")) (flat_at k (outp "default"))].
  Definition bwd_mask : list call :=
    let k := cf_flatten (li_cfg l) in let tmp := flat_at k (outp "default") in
    access (li_in l) ["default"; "mask"] ++ access (li_out l) ["default"] ++
    fm (outp "default") ++ fm (inp "mask") ++ fm (inp "default") ++
    [HMultMv (flat_at k (outp "default")) (flat_at k (inp "mask")) tmp;
     each "add_tt" [tmp; flat_at k (inp "default"); flat_at k (inp "default")]].
  (** merge_layer.py:46-57 *)
  Definition access_merge : list call :=
    access (li_in l) ["inputs_1"; "inputs_2"] ++ access (li_out l) ["default"].
  Definition fwd_merge : list call := access_merge ++ [HMerge (inp "inputs_1") (inp "inputs_2") (outp "default")].
  Definition bwd_merge : list call := access_merge ++ [HSplitAdd (outp "default") (inp "inputs_1") (inp "inputs_2")].
  (** sigmoid_ce_layer.py:58-100 *)
  Definition fwd_sigmoid_ce : list call :=
    let x := flat_time_features (inp "default") in let t := flat_time_features (inp "targets") in
    let loss := flat_time_features (outp "loss") in let prob := flat_time_features (outp "predictions") in
    let tmp := prob in
    access (li_in l) ["default"; "targets"] ++ access (li_out l) ["loss"; "predictions"] ++
    ftf (inp "default") ++ ftf (inp "targets") ++ ftf (outp "loss") ++ ftf (outp "predictions") ++
    [each "sigmoid" [x; prob]; each "subtract_tt" [tmp; prob; loss]; each "subtract_tt" [tmp; t; tmp];
     each "clip_t" [loss; loss]; each "log_t" [loss; loss]; each "mult_tt" [tmp; loss; tmp];
     each "clip_t" [prob; loss]; each "log_t" [loss; loss]; each "mult_tt" [t; loss; loss];
     each "add_tt" [tmp; loss; loss]; scaled "mult_st" (num (-1)) [loss; loss]].
  Definition bwd_sigmoid_ce : list call :=
    let dinputs := flat_time_features (inp "default") in let t := flat_time_features (inp "targets") in
    let dloss := flat_time_features (outp "loss") in let prob := flat_time_features (outp "predictions") in
    let dcee := flat_time_features (int "dcee") in
    access (li_in l) ["default"; "targets"] ++ access (li_out l) ["loss"; "predictions"] ++ access (li_int l) ["dcee"] ++
    ftf (inp "default") ++ ftf (outp "loss") ++ ftf (int "dcee") ++ ftf (inp "targets") ++ ftf (outp "predictions") ++
    [each "subtract_tt" [prob; t; dcee]; HMultMv dcee dloss dcee; each "add_tt" [dcee; dinputs; dinputs]].
  (** softmax_ce_layer.py:65-114 *)
  Definition fwd_softmax_ce : list call :=
    let x := flat_but_last (inp "default") in let t := flat_but_last (inp "targets") in
    let loss := flat_but_last (outp "loss") in let probs := flat_but_last (outp "predictions") in
    access (li_in l) ["default"; "targets"] ++ access (li_out l) ["predictions"; "loss"] ++
    fbl (inp "default") ++ fbl (outp "predictions") ++ fbl (outp "loss") ++ fbl (inp "targets") ++
    [HSoftmax x probs; scaled "fill" (num 0) [outp "loss"]; HIndexByV probs t loss; each "clip_t" [loss; loss];
     each "log_t" [outp "loss"; outp "loss"]; scaled "mult_st" (num (-1)) [outp "loss"; outp "loss"]].
  Definition bwd_softmax_ce : list call :=
    let probs := flat_but_last (outp "predictions") in let t := flat_but_last (inp "targets") in
    let t_bin := flat_but_last (int "t_bin") in let dloss := flat_but_last (outp "loss") in
    let dinputs := flat_but_last (inp "default") in
    access (li_in l) ["targets"; "default"] ++ access (li_out l) ["predictions"; "loss"] ++ access (li_int l) ["t_bin"] ++
    fbl (outp "predictions") ++ fbl (inp "targets") ++ fbl (int "t_bin") ++ fbl (outp "loss") ++ fbl (inp "default") ++
    [HBinarize t t_bin; scaled "mult_st" (num (-1)) [t_bin; t_bin]; each "add_tt" [t_bin; probs; t_bin];
     HMultMv t_bin dloss t_bin; each "add_tt" [t_bin; dinputs; dinputs]].
  (** squared_difference_layer.py:42-67 *)
  Definition access_sqdiff : list call :=
    access (li_in l) ["inputs_1"; "inputs_2"] ++ access (li_int l) ["diff"] ++ access (li_out l) ["default"] ++
    ftf (inp "inputs_1") ++ ftf (inp "inputs_2") ++ ftf (int "diff") ++ ftf (outp "default").
  Definition fwd_squared_difference : list call :=
    let a := flat_time_features (inp "inputs_1") in let b := flat_time_features (inp "inputs_2") in
    let diff := flat_time_features (int "diff") in let out := flat_time_features (outp "default") in
    access_sqdiff ++ [each "subtract_tt" [a; b; diff]; each "mult_tt" [diff; diff; out]].
  Definition bwd_squared_difference : list call :=
    let a := flat_time_features (inp "inputs_1") in let b := flat_time_features (inp "inputs_2") in
    let diff := flat_time_features (int "diff") in let out := flat_time_features (outp "default") in
    let tmp := out in
    access_sqdiff ++
    [scaled "mult_st" (num 2) [out; out]; each "mult_add_tt" [out; diff; a];
     scaled "mult_st" (num (-1)) [diff; tmp]; each "mult_add_tt" [out; tmp; b]].
  (** squared_error_layer.py:56-79 *)
  Definition fwd_squared_error : list call :=
    let x := flat_time_features (inp "default") in let t := flat_time_features (inp "targets") in
    let diff := flat_time_features (int "diff") in let y := flat_time_features (outp "predictions") in
    let loss := flat_time_features (outp "loss") in
    access (li_in l) ["default"; "targets"] ++ access (li_int l) ["diff"] ++ access (li_out l) ["predictions"; "loss"] ++
    ftf (inp "default") ++ ftf (inp "targets") ++ ftf (int "diff") ++ ftf (outp "predictions") ++ ftf (outp "loss") ++
    [each "copy_to" [x; y]; each "subtract_tt" [x; t; diff]; each "mult_tt" [diff; diff; loss];
     scaled "mult_st" (num (1#2)) [loss; loss]].
  Definition bwd_squared_error : list call :=
    let dloss := flat_time_features (outp "loss") in let diff := flat_time_features (int "diff") in
    let dx := flat_time_features (inp "default") in
    access (li_out l) ["loss"] ++ access (li_int l) ["diff"] ++ access (li_in l) ["default"] ++
    ftf (outp "loss") ++ ftf (int "diff") ++ ftf (inp "default") ++
    [each "mult_add_tt" [dloss; diff; dx]].

  (** The Input layer does nothing (base_layer.py:119-123). *)
  Definition forward_calls (training : bool) : list call :=
    match li_cls l with
    | CBatchNorm => fwd_batch_norm training
    | CBinomialCE => fwd_binomial
    | CClockwork => fwd_recurrent true
    | CClockworkLstm => fwd_lstm true
    | CConv => fwd_conv
    | CDeltasScaling => fwd_copy
    | CDropout => fwd_dropout training
    | CElementwise => fwd_elementwise
    | CFullyConnected => fwd_fully_connected
    | CHighway => fwd_highway
    | CInput => []
    | CL1Decay => fwd_decay false
    | CL2Decay => fwd_decay true
    | CLoss => fwd_loss
    | CLstm => fwd_lstm false
    | CMask => fwd_mask
    | CMerge => fwd_merge
    | CNoOp => fwd_copy
    | CPool => fwd_pool
    | CRecurrent => fwd_recurrent false
    | CSigmoidCE => fwd_sigmoid_ce
    | CSoftmaxCE => fwd_softmax_ce
    | CSquaredDifference => fwd_squared_difference
    | CSquaredError => fwd_squared_error
    end.
  Definition backward_calls : list call :=
    match li_cls l with
    | CBatchNorm => bwd_batch_norm
    | CBinomialCE => bwd_binomial
    | CClockwork => bwd_recurrent true
    | CClockworkLstm => bwd_lstm true
    | CConv => bwd_conv
    | CDeltasScaling => bwd_deltas_scaling
    | CDropout => bwd_dropout
    | CElementwise => bwd_elementwise
    | CFullyConnected => bwd_fully_connected
    | CHighway => bwd_highway
    | CInput => []
    | CL1Decay => bwd_decay false
    | CL2Decay => bwd_decay true
    | CLoss => bwd_loss
    | CLstm => bwd_lstm false
    | CMask => bwd_mask
    | CMerge => bwd_merge
    | CNoOp => bwd_noop
    | CPool => bwd_pool
    | CRecurrent => bwd_recurrent false
    | CSigmoidCE => bwd_sigmoid_ce
    | CSoftmaxCE => bwd_softmax_ce
    | CSquaredDifference => bwd_squared_difference
    | CSquaredError => bwd_squared_error
    end.
End Passes.
