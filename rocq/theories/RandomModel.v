(** Model of brainstorm/randomness.py and brainstorm/initializers.py, and of the
    part of Network.initialize that evaluates initializers. *)
From Coq Require Import String List Arith Bool Reals.
From Verif Require Import PyBase.
Import ListNotations.
Open Scope string_scope.
Open Scope list_scope.
Open Scope nat_scope.

(** numpy's generator: state after seeding, and drawing.  The theorems hold for
    every generator.  [K] are the kinds of draws (rand, randn, shuffle with their
    arguments ...), [V] the results. *)
Record generator := mkGenerator {
  g_St : Type; g_K : Type; g_V : Type;
  g_seed : nat -> g_St;
  g_draw : g_K -> g_St -> g_V * g_St;
  g_int : g_St -> nat * g_St;          (* randint( *seed_range ) *)
}.

Section States.
  Variable G : generator.
  (** randomness.py:10-22: a RandomState is the saved seed and numpy's state. *)
  Record rstate := mkRstate { r_seed : nat; r_st : g_St G }.
  (** All RandomState objects; object 0 is global_rnd (randomness.py:111). *)
  Definition heap := list rstate.
  Inductive op :=
  | New (seed : option nat)                (* RandomState(seed), 18-22; Seedable.__init__, 104-108 *)
  | Draw (o : nat) (k : g_K G)             (* any numpy method *)
  | SetSeed (o : nat) (seed : nat)         (* seed / set_seed, 24-52; seed=None is not modelled *)
  | Reset (o : nat)                        (* reset, 54-58 *)
  | GenSeed (o : nat)                      (* generate_seed, 60-64 *)
  | Create (o : nat) (seed : option nat)   (* create_random_state, 66-80 *)
  | Pickle (o : nat).                      (* __reduce__ / __setstate__, 82-90: a restored copy *)
  Inductive out := Value (v : g_V G) | Seed (n : nat) | Done | NoObject.
  Definition upd (h : heap) (o : nat) (r : rstate) : heap := firstn o h ++ r :: skipn (S o) h.
  Definition fresh (s : nat) : rstate := mkRstate s (g_seed G s).
  Definition step (h : heap) (p : op) : heap * out :=
    match p with
    | New (Some s) => (h ++ [fresh s], Done)
    | New None =>
        match nth_error h 0 with
        | None => (h, NoObject)
        | Some r => let '(s, st) := g_int G (r_st r) in (upd h 0 (mkRstate (r_seed r) st) ++ [fresh s], Done)
        end
    | Draw o k =>
        match nth_error h o with
        | None => (h, NoObject)
        | Some r => let '(v, st) := g_draw G k (r_st r) in (upd h o (mkRstate (r_seed r) st), Value v)
        end
    | SetSeed o s => match nth_error h o with None => (h, NoObject) | Some _ => (upd h o (fresh s), Done) end
    | Reset o => match nth_error h o with None => (h, NoObject) | Some r => (upd h o (fresh (r_seed r)), Done) end
    | GenSeed o =>
        match nth_error h o with
        | None => (h, NoObject)
        | Some r => let '(s, st) := g_int G (r_st r) in (upd h o (mkRstate (r_seed r) st), Seed s)
        end
    | Create o (Some s) => match nth_error h o with None => (h, NoObject) | Some _ => (h ++ [fresh s], Done) end
    | Create o None =>
        match nth_error h o with
        | None => (h, NoObject)
        | Some r => let '(s, st) := g_int G (r_st r) in (upd h o (mkRstate (r_seed r) st) ++ [fresh s], Done)
        end
    | Pickle o => match nth_error h o with None => (h, NoObject) | Some r => (h ++ [r], Done) end
    end.
  Fixpoint run (h : heap) (ps : list op) : heap * list out :=
    match ps with
    | [] => (h, [])
    | p :: r => let '(h1, o) := step h p in let '(h2, os) := run h1 r in (h2, o :: os)
    end.
End States.

(** * Initializers *)
Definition shape := list nat.
(** An array of the given shape: entries by multi-index. *)
Definition arr := list nat -> R.

Section Initializers.
  Variable St : Type.
  Variable seed_state : nat -> St.
  Variable gen_seed : St -> nat * St.
  (** rnd.shuffle of m rows: row [a] of the result is row [perm a]. *)
  Variable shuffle : nat -> St -> (nat -> nat) * St.

  (** An initializer.  Objects have an identity [id] that stands for their own
      RandomState; the same object may occur several times.
      - [Scalar]: an int or float;
      - [Simple]: ArrayInitializer, DenseSqrtFanIn, DenseSqrtFanInOut, EchoState,
        Gaussian, Identity, Orthogonal, RandomWalk, Uniform: any function of the
        shape and the own generator ([None]: InitializationError);
      - [Lstm]: LstmOptInit;
      - [Sparse inputs]: SparseInputs or SparseOutputs. *)
  Inductive init :=
  | Scalar (c : R)
  | Simple (id : nat) (body : shape -> St -> option arr * St)
  | Lstm (id : nat) (block_input input_gate forget_gate output_gate : init)
  | Sparse (inputs : bool) (id : nat) (sub : init) (connections : nat).

  (** The states of the generators of all initializer objects. *)
  Definition rnds := nat -> St.
  Definition set_rnd (h : rnds) (id : nat) (s : St) : rnds := fun i => if i =? id then s else h i.

  (** The masks: columns (rows for SparseOutputs) are shuffled one after the other. *)
  Fixpoint shuffles (m count : nat) (s : St) : list (nat -> nat) * St :=
    match count with
    | 0 => ([], s)
    | S c => let '(p, s1) := shuffle m s in let '(ps, s2) := shuffles m c s1 in (p :: ps, s2)
    end.
  Definition mask_entry (connections : nat) (perms : list (nat -> nat)) (along across : nat) : bool :=
    match nth_error perms across with Some p => p along <? connections | None => false end.

  (** Join of four blocks along the first axis (initializers.py:240-250). *)
  Definition join4 (n : nat) (w1 w2 w3 w4 : arr) : arr := fun idx =>
    match idx with
    | [] => 0%R
    | i :: r => if i <? n then w1 (i :: r) else if i <? 2 * n then w2 (i - n :: r)
                else if i <? 3 * n then w3 (i - 2 * n :: r) else w4 (i - 3 * n :: r)
    end.

  (** evaluate_initializer (initializers.py:401-418) without fallback, including the
      __call__ methods; result [None] is the InitializationError.  *)
  Fixpoint evaluate (h : rnds) (seed : option nat) (i : init) (sh : shape) : option arr * rnds :=
    match i with
    | Scalar c => (Some (fun _ => c), h)
    | Simple id body =>
        let h := match seed with Some s => set_rnd h id (seed_state s) | None => h end in
        let '(r, s') := body sh (h id) in (r, set_rnd h id s')
    | Lstm id i1 i2 i3 i4 =>      (* initializers.py:235-251 *)
        let h := match seed with Some s => set_rnd h id (seed_state s) | None => h end in
        match sh with
        | [] => (None, h)         (* IndexError; not an InitializationError *)
        | d :: rest =>
            if negb (d mod 4 =? 0) then (None, h)
            else
              let sub := d / 4 :: rest in
              let '(s1, st1) := gen_seed (h id) in
              match evaluate (set_rnd h id st1) (Some s1) i1 sub with
              | (None, h) => (None, h)
              | (Some w1, h) =>
                  let '(s2, st2) := gen_seed (h id) in
                  match evaluate (set_rnd h id st2) (Some s2) i2 sub with
                  | (None, h) => (None, h)
                  | (Some w2, h) =>
                      let '(s3, st3) := gen_seed (h id) in
                      match evaluate (set_rnd h id st3) (Some s3) i3 sub with
                      | (None, h) => (None, h)
                      | (Some w3, h) =>
                          let '(s4, st4) := gen_seed (h id) in
                          match evaluate (set_rnd h id st4) (Some s4) i4 sub with
                          | (None, h) => (None, h)
                          | (Some w4, h) => (Some (join4 (d / 4) w1 w2 w3 w4), h)
                          end
                      end
                  end
              end
        end
    | Sparse inputs id sub connections =>   (* initializers.py:331-342, 361-371 *)
        let h := match seed with Some s => set_rnd h id (seed_state s) | None => h end in
        match sh with
        | d0 :: d1 :: _ =>
            let along := if inputs then d0 else d1 in let across := if inputs then d1 else d0 in
            if along <? connections then (None, h)
            else
              match evaluate h None sub sh with
              | (None, h) => (None, h)
              | (Some w, h) =>
                  let '(perms, s') := shuffles along across (h id) in
                  (Some (fun idx => match idx with
                                    | a :: b :: _ =>
                                        (w idx * (if if inputs then mask_entry connections perms a b else mask_entry connections perms b a then 1 else 0))%R
                                    | _ => 0%R
                                    end), set_rnd h id s')
              end
        | _ => (None, h)          (* _assert_atleast2d *)
        end
    end.
  (** evaluate_initializer with fallback.  Simplification: a TypeError or
      AttributeError does not occur. *)
  Definition evaluate_initializer (h : rnds) (seed : option nat) (i : init) (fallback : option init) (sh : shape) : option arr * rnds :=
    match evaluate h seed i sh with
    | (Some w, h) => (Some w, h)
    | (None, h) => match fallback with None => (None, h) | Some f => evaluate h seed f sh end
    end.

  (** A parameter view to be initialised: layer and view name, shape, and the
      initializer and fallback found for it. *)
  Record view := mkView { v_layer : string; v_name : string; v_shape : shape; v_init : init; v_fallback : option init }.
  Definition view_leb (a b : view) : bool :=
    if String.eqb (v_layer a) (v_layer b) then String.leb (v_name a) (v_name b) else String.leb (v_layer a) (v_layer b).
  (** network.py:251-274: the loop over sorted(all_parameters.items()); result:
      the values by layer and view name.  [None]: an InitializationError. *)
  Fixpoint init_views (rnd : St) (h : rnds) (vs : list view) : option (list (string * string * arr)) * rnds :=
    match vs with
    | [] => (Some [], h)
    | v :: r =>
        let '(s, rnd') := gen_seed rnd in
        match evaluate_initializer h (Some s) (v_init v) (v_fallback v) (v_shape v) with
        | (None, h) => (None, h)
        | (Some w, h) =>
            match init_views rnd' h r with
            | (None, h) => (None, h)
            | (Some ws, h) => (Some ((v_layer v, v_name v, w) :: ws), h)
            end
        end
    end.
  (** network.py:250: create_random_state(seed) with a given seed *)
  Definition initialize (seed : nat) (h : rnds) (vs : list view) : option (list (string * string * arr)) * rnds :=
    init_views (seed_state seed) h (isort view_leb vs).
End Initializers.
