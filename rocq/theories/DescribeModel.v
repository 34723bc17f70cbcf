(** Model of brainstorm/describable.py and of the classes' describing hooks. *)
From Coq Require Import String List Arith Bool ZArith QArith.
From Verif Require Import PyBase.
Import ListNotations.
Open Scope string_scope.
Open Scope list_scope.
Open Scope nat_scope.

(** Floating point numbers. *)
Inductive pyfloat := Fin (q : Q) | PInf | NInf | NaN.

(** JSON data, the descriptions (describable.py:6-21). *)
Inductive json :=
| JNone | JBool (b : bool) | JInt (z : Z) | JFloat (f : pyfloat) | JStr (s : string)
| JList (l : list json) | JDict (d : list (string * json)).

(** Python values.  [VArr l] is an array of at least one dimension whose tolist() is
    [l]; [VObj c m] an instance of the Describable class called [c] with __dict__
    [m]; [VOpaque] anything that cannot be described (functions, random states,
    handlers' buffers).  Simplification: object identity is not modelled, dict keys
    are strings. *)
Inductive value :=
| VNone | VBool (b : bool) | VInt (z : Z) | VFloat (f : pyfloat) | VStr (s : string)
| VList (l : list value) | VTuple (l : list value) | VArr (l : list json)
| VDict (d : list (string * value)) | VObj (c : string) (m : list (string * value)) | VOpaque (n : nat).

(** [map] with exceptions ([None]). *)
Definition map_opt {A B} (f : A -> option B) : list A -> option (list B) :=
  fix go l :=
    match l with
    | [] => Some []
    | a :: r => match f a, go r with Some b, Some bs => Some (b :: bs) | _, _ => None end
    end.

(** A number as rational, if it is one (bool is a subclass of int). *)
Definition numeric (v : value) : option Q :=
  match v with
  | VBool b => Some (if b then 1 else 0)%Q
  | VInt z => Some (inject_Z z)
  | VFloat (Fin q) => Some q
  | _ => None
  end.
(** default == value (describable.py:79) for a default that is no container; such
    defaults are the only ones in the code.  Simplification: comparison with an
    array (elementwise in numpy) is false. *)
Definition pyeq (a b : value) : bool :=
  match numeric a, numeric b with
  | Some p, Some q => Qeq_bool p q
  | _, _ =>
      match a, b with
      | VNone, VNone => true
      | VStr s, VStr t => String.eqb s t
      | VFloat PInf, VFloat PInf => true
      | VFloat NInf, VFloat NInf => true
      | _, _ => false
      end
  end.

(** dict.update *)
Definition update {V} (d e : dict V) : dict V := fold_left (fun acc it => dset (fst it) (snd it) acc) e d.

(** A class: the __undescribed__ and __default_values__ of its ancestors (base class
    first; a set of names is a dict of Nones), its own __describe__ if it overrides
    that of Describable, and its __init_from_description__ ([None]: it raises). *)
Record cls := mkCls {
  c_name : string;
  c_undescribed : list (dict value);
  c_defaults : list (dict value);
  c_describe : option (dict value -> option json);
  c_hook : dict value -> option (dict value)
}.
(** describable.py:141-149, 151-157 *)
Definition all_undescribed (C : cls) : dict value := fold_left update (c_undescribed C) [].
Definition all_default_values (C : cls) : dict value := fold_left update (c_defaults C) [].

Section Registry.
  (** get_inheritors(Describable).  Simplification: class names are distinct. *)
  Variable classes : list cls.
  Definition find_class (name : string) : option cls := find (fun C => String.eqb (c_name C) name) classes.

  (** describable.py:77-80 *)
  Definition omitted (C : cls) (member : string) (v : value) : bool :=
    dmem member (all_undescribed C) ||
    match dget member (all_default_values C) with Some d => pyeq d v | None => false end.

  (** describable.py:63-89, 160-201.  [None] is the TypeError. *)
  Fixpoint get_description (v : value) : option json :=
    match v with
    | VNone => Some JNone
    | VBool b => Some (JBool b)
    | VInt z => Some (JInt z)
    | VFloat f => Some (JFloat f)
    | VStr s => Some (JStr s)
    | VList l => option_map JList (map_opt get_description l)
    | VTuple l => option_map JList (map_opt get_description l)
    | VArr l => Some (JList l)
    | VDict d => option_map JDict (map_opt (fun it => option_map (pair (fst it)) (get_description (snd it))) d)
    | VOpaque _ => None
    | VObj c m =>
        match find_class c with
        | None => None
        | Some C =>
            match c_describe C with
            | Some f => f m
            | None =>
                option_map (fun l => JDict (dset "@type" (JStr c) l))
                  ((fix go (m : list (string * value)) :=
                      match m with
                      | [] => Some []
                      | (member, v) :: r =>
                          if omitted C member v then go r
                          else match get_description v, go r with Some j, Some js => Some ((member, j) :: js) | _, _ => None end
                      end) m)
            end
        end
    end.

  (** describable.py:91-126, 204-235.  [None] is an exception. *)
  Fixpoint create_from_description (j : json) : option value :=
    match j with
    | JNone => Some VNone
    | JBool b => Some (VBool b)
    | JInt z => Some (VInt z)
    | JFloat f => Some (VFloat f)
    | JStr s => Some (VStr s)
    | JList l => option_map VList (map_opt create_from_description l)
    | JDict d =>
        match map_opt (fun it => option_map (pair (fst it)) (create_from_description (snd it))) d with
        | None => None
        | Some d' =>
            match dget "@type" d with
            | None => Some (VDict d')
            | Some (JStr name) =>
                match find_class name with
                | None => None
                | Some C =>
                    option_map (VObj name)
                      (c_hook C (update (update (update [] (all_undescribed C)) (all_default_values C))
                                   (filter (fun it => negb (String.eqb (fst it) "@type")) d')))
                end
            | Some _ => None
            end
        end
    end.
End Registry.

(** ** Classes of the library *)
(** Seedable (randomness.py:93-108): the hook gives the object a new random state. *)
Definition seedable_hook (m : dict value) : option (dict value) := Some (dset "rnd" (VOpaque 0) m).
Definition no_hook (m : dict value) : option (dict value) := Some m.
Definition names (l : list string) : dict value := map (fun x => (x, VNone)) l.
(** An initializer without further hooks (initializers.py:21-37). *)
Definition initializer_class (name : string) (defaults : dict value) : cls := mkCls name [names ["rnd"]] [defaults] None seedable_hook.
Definition rat (n : Z) (d : positive) : value := VFloat (Fin (n # d)).
(** initializers.py:387-392.  Overrides the hook of Seedable. *)
Definition uniform_hook (m : dict value) : option (dict value) :=
  let check m := match dget "low" m, dget "high" m with
                 | Some l, Some h => match numeric l, numeric h with
                                     | Some l, Some h => if Qle_bool h l then None else Some m
                                     | _, _ => None
                                     end
                 | _, _ => None
                 end in
  match dget "high" m with
  | Some VNone =>
      match dget "low" m with
      | Some l => match numeric l with
                  | Some q => let lo := if Qle_bool (-q) q then (-q)%Q else q in
                              check (dset "high" (VFloat (Fin (-lo))) (dset "low" (VFloat (Fin lo)) m))
                  | None => None
                  end
      | None => None
      end
  | Some _ => check m
  | None => None   (* AttributeError *)
  end.
Definition library : list cls :=
  [initializer_class "DenseSqrtFanIn" [("scale", VStr "rel")];          (* initializers.py:82 *)
   initializer_class "DenseSqrtFanInOut" [("scale", VStr "rel")];       (* 129 *)
   initializer_class "EchoState" [("spectral_radius", rat 1 1)];        (* 161 *)
   initializer_class "Gaussian" [("mean", rat 0 1)];                    (* 184 *)
   initializer_class "Identity" [];
   initializer_class "LstmOptInit" [];
   initializer_class "Orthogonal" [];
   initializer_class "RandomWalk" [("scale", VNone)];                   (* 288 *)
   initializer_class "SparseInputs" [];
   initializer_class "SparseOutputs" [];
   (* initializers.py:40-56: describes itself as a list *)
   mkCls "ArrayInitializer" [names ["rnd"]] [] (Some (fun m => match dget "array" m with Some (VArr l) => Some (JList l) | _ => None end)) seedable_hook;
   mkCls "Uniform" [names ["rnd"]] [[("low", VNone)]] None uniform_hook;  (* 374-396 *)
   (* value_modifiers.py *)
   mkCls "ConstrainL2Norm" [names ["rnd"]; names ["layer_name"; "view_name"]] [] None seedable_hook;
   mkCls "ClipValues" [names ["rnd"]; names ["layer_name"; "view_name"]] [] None seedable_hook;
   mkCls "MaskValues" [names ["rnd"]; names ["layer_name"; "view_name"]; names ["device_mask"]] [] None seedable_hook;
   mkCls "FreezeValues" [names ["rnd"]; names ["layer_name"; "view_name"]; names ["weights"; "device_weights"]] [] None seedable_hook;
   mkCls "L1Decay" [names ["rnd"]; names ["layer_name"; "view_name"]] [] None seedable_hook;
   mkCls "L2Decay" [names ["rnd"]; names ["layer_name"; "view_name"]] [] None seedable_hook;
   (* training/steppers.py:14, 50, 80-81 *)
   mkCls "SgdStepper" [names ["net"]; names ["update"]] [] None no_hook;
   mkCls "MomentumStepper" [names ["net"]; names ["velocity"]] [[("scale_learning_rate", VBool true)]] None no_hook;
   mkCls "NesterovStepper" [names ["net"]; names ["velocity"]] [[("scale_learning_rate", VBool true)]] None no_hook;
   (* hooks.py:22-30, 112-113, 482, 695 *)
   mkCls "SaveBestNetwork" [names ["__name__"; "run_verbosity"]; [("parameters", VNone)]]
     [[("timescale", VStr "epoch"); ("interval", VInt 1); ("verbose", VNone)]; [("filename", VNone)]] None no_hook;
   mkCls "EarlyStopper" [names ["__name__"; "run_verbosity"]]
     [[("timescale", VStr "epoch"); ("interval", VInt 1); ("verbose", VNone)]; [("patience", VInt 1)]] None no_hook;
   mkCls "StopOnSigQuit" [names ["__name__"; "run_verbosity"]; [("quit", VBool false)]]
     [[("timescale", VStr "epoch"); ("interval", VInt 1); ("verbose", VNone)]] None no_hook].
