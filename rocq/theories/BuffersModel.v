(** Model of brainstorm/structure/buffers.py and
    BufferStructure.create_from_buffer_hub: where each buffer lives in memory,
    resizing, changing the handler, contexts. *)
From Coq Require Import String List Arith Bool.
From Verif Require Import PyBase HubModel LayoutModel.
Import ListNotations.
Open Scope string_scope.
Open Scope list_scope.
Open Scope nat_scope.

(** ** numpy views: offset and, for each axis, (length, stride) *)
Record arr := mkArr { a_off : nat; a_dims : list (nat * nat) }.

Definition prod (shape : list nat) : nat := fold_right Nat.mul 1 shape.
Definition sum (l : list nat) : nat := fold_right Nat.add 0 l.
Fixpoint c_dims (shape : list nat) : list (nat * nat) :=
  match shape with [] => [] | n :: r => (n, prod r) :: c_dims r end.
(** full_buffer[lo:hi].reshape(shape) for hi = lo + prod shape *)
Definition c_array (lo : nat) (shape : list nat) : arr := mkArr lo (c_dims shape).
(** a[lo:hi] on the given axis *)
Fixpoint slice_dims (axis lo hi : nat) (dims : list (nat * nat)) : list (nat * nat) :=
  match dims, axis with
  | [], _ => []
  | (_, s) :: r, 0 => (hi - lo, s) :: r
  | d :: r, S k => d :: slice_dims k lo hi r
  end.
Definition slice (axis lo hi : nat) (a : arr) : arr :=
  mkArr (a_off a + lo * snd (nth axis (a_dims a) (0, 0))) (slice_dims axis lo hi (a_dims a)).
(** a.reshape(...) that only splits the last axis *)
Definition split_last (feat : list nat) (a : arr) : arr :=
  let s := snd (last (a_dims a) (0, 0)) in
  mkArr (a_off a) (removelast (a_dims a) ++ map (fun d => (fst d, snd d * s)) (c_dims feat)).

Fixpoint dot_strides (dims : list (nat * nat)) (idx : list nat) : nat :=
  match dims, idx with
  | d :: ds, i :: is => i * snd d + dot_strides ds is
  | _, _ => 0
  end.
(** Address of an element. *)
Definition address (a : arr) (idx : list nat) : nat := a_off a + dot_strides (a_dims a) idx.
Definition a_shape (a : arr) : list nat := map fst (a_dims a).
Definition in_range (a : arr) (idx : list nat) : Prop := Forall2 lt idx (a_shape a).

(** ** Hubs in memory *)
(** layout.py:53-57 Hub.get_shape *)
Definition hub_shape (h : hub) (T B : nat) : list nat :=
  skipn (2 - h_btype h) [T + h_ctx h; B; h_size h].
(** buffers.py:47-53 get_total_size_slices_and_shapes *)
Definition hub_cells (T B : nat) (h : hub) : nat := prod (hub_shape h T B).
Definition hub_base (hubs : list hub) (T B k : nat) : nat := offset (map (hub_cells T B) hubs) k.
Definition total_size (hubs : list hub) (T B : nat) : nat := sum (map (hub_cells T B) hubs).
(** buffers.py:83-84: self.buffers[k] *)
Definition hub_buffer (hubs : list hub) (T B k : nat) (h : hub) : arr :=
  c_array (hub_base hubs T B k) (hub_shape h T B).

(** buffer_structure.py:218-245 create_from_buffer_hub. The leading axes of
    the result have the same lengths as those of the sub-buffer, so reshape
    only splits the feature axis; None is the ValueError of reshape when the
    number of features differs. Simplified: for time or batch size 0 numpy
    accepts differing numbers of features. *)
Definition create_from_buffer_hub (st : lstruct) (buffer : arr) (T : nat) (h : hub) (lo hi : nat) : option arr :=
  if (hi - lo =? ls_size st) then
    Some (split_last (ls_feat st)
      (match ls_btype st with
       | 0 => slice 0 lo hi buffer
       | 1 => slice 1 lo hi buffer
       | _ => slice 2 lo hi (slice 0 0 ((T + h_ctx h) - (h_ctx h - ls_ctx st)) buffer)
       end))
  else None.

(** The structures in the layout: those of layout.py:208-283, and the two root
    entries (one-dimensional, as long as their slice). *)
Definition struct_at (layers : list layer) (p : string) (sl : nat * nat) : option lstruct :=
  if smem p ["parameters"; "gradients"] then Some (mkStruct 0 [snd sl - fst sl] 0 (String.eqb p "gradients"))
  else dget p (stub layers).

(** buffers.py:14-21 (create_buffer_views_from_layout for one node) *)
Definition array_view (layers : list layer) (hubs : list hub) (lay : slices) (T B : nat) (p : string) : option arr :=
  match dget p lay with
  | Some (k, sl) =>
      match nth_error hubs k, struct_at layers p sl with
      | Some h, Some st => create_from_buffer_hub st (hub_buffer hubs T B k h) T h (fst sl) (snd sl)
      | _, _ => None
      end
  | None => None
  end.

(** ** Memory *)
Section Mem.
  Variable V : Type.
  Variable zero : V.
  Definition memory := nat -> V.
  Definition upd (m : memory) (a : nat) (v : V) : memory := fun b => if b =? a then v else m b.
  (** mem[lo:lo+len(vs)] = vs *)
  Definition write_block (m : memory) (lo : nat) (vs : list V) : memory :=
    fun b => if (lo <=? b) && (b <? lo + length vs) then nth (b - lo) vs zero else m b.
  Definition read_block (m : memory) (lo n : nat) : list V := map m (seq lo n).

  (** BufferManager (buffers.py:56-110); [bm_par] is the place of the parameters
      in the layout (hub and slice), [bm_size] is None for -1, [bm_views] the
      time and batch size the views were made for (None: no views). *)
  Record manager := mkManager {
    bm_hubs : list hub;
    bm_par : nat * (nat * nat);
    bm_sizes : option (nat * nat);
    bm_size : option nat;
    bm_mem : memory;
    bm_views : option (nat * nat)
  }.
  Definition par_len (m : manager) : nat := snd (snd (bm_par m)) - fst (snd (bm_par m)).
  (** First cell of views.parameters; its hub has buffer type 0, or the slice
      is empty. *)
  Definition par_cell (m : manager) (tb : nat * nat) : nat :=
    hub_base (bm_hubs m) (fst tb) (snd tb) (fst (bm_par m)) + fst (snd (bm_par m)).
  Definition read_parameters (m : manager) : option (list V) :=
    match bm_views m with
    | Some tb => Some (read_block (bm_mem m) (par_cell m tb) (par_len m))
    | None => None
    end.
  (** handler.set_from_numpy(self.views.parameters, parameters) *)
  Definition write_parameters (m : manager) (vs : list V) : manager :=
    match bm_views m with
    | Some tb => mkManager (bm_hubs m) (bm_par m) (bm_sizes m) (bm_size m)
                   (write_block (bm_mem m) (par_cell m tb) vs) (bm_views m)
    | None => m
    end.

  (** buffers.py:69-96 resize; [fresh] is the content of newly allocated
      memory. *)
  Definition resize (m : manager) (T B : nat) (fresh : memory) : manager :=
    if match bm_sizes m with Some (t, b) => (t =? T) && (b =? B) | None => false end then m
    else
      let total := total_size (bm_hubs m) T B in
      let bigger := match bm_size m with Some s => s <? total | None => true end in
      let parameters := read_parameters m in
      let m' := mkManager (bm_hubs m) (bm_par m) (Some (T, B)) (if bigger then Some total else bm_size m)
                  (if bigger then fresh else bm_mem m) (Some (T, B)) in
      match parameters with Some ps => write_parameters m' ps | None => m' end.

  (** buffers.py:98-110 set_handler *)
  Definition set_handler (m : manager) (fresh : memory) : manager :=
    let parameters := read_parameters m in
    let m1 := mkManager (bm_hubs m) (bm_par m) None None (bm_mem m) None in
    let m2 := resize m1 0 0 fresh in
    match parameters with Some ps => write_parameters m2 ps | None => m2 end.

  (** buffers.py:57-67 __init__ *)
  Definition new_manager (hubs : list hub) (par : nat * (nat * nat)) (fresh : memory) : manager :=
    resize (mkManager hubs par None None fresh None) 0 0 fresh.

  (** ** Contexts (hubs of type ('T', 'B', ...) with context) *)
  Definition has_context (h : hub) : bool := (h_btype h =? 2) && negb (h_ctx h =? 0).
  Definition row_size (B : nat) (h : hub) : nat := B * h_size h.
  (** Row [t] of hub [k]: a block of batch_size * hub.size cells. *)
  Definition row_cell (hubs : list hub) (T B k t : nat) (h : hub) : nat := hub_base hubs T B k + t * row_size B h.
  (** Python's start index of buf[start:] for len(buf) = n, start = T - c *)
  Definition py_start (T c n : nat) : nat := if c <=? T then T - c else n - (c - T).

  (** buffers.py:138-145 clear_context: buf[time_size - context_size:] = 0 *)
  Definition clear_hub (hubs : list hub) (T B : nat) (m : memory) (kh : nat * hub) : memory :=
    let (k, h) := kh in
    if has_context h then
      let n := T + h_ctx h in
      let start := py_start T (h_ctx h) n in
      write_block m (row_cell hubs T B k start h) (repeat zero ((n - start) * row_size B h))
    else m.
  Definition clear_context (hubs : list hub) (T B : nat) (m : memory) : memory :=
    fold_left (clear_hub hubs T B) (combine (seq 0 (length hubs)) hubs) m.

  (** buffers.py:112-130 get_context, for time_size >= context_size: rows
      [T - c, T) of each hub with context. *)
  Definition get_context (hubs : list hub) (T B : nat) (m : memory) : list (option (list V)) :=
    map (fun kh : nat * hub => let (k, h) := kh in
           if has_context h
           then Some (read_block m (row_cell hubs T B k (T - h_ctx h) h) (h_ctx h * row_size B h))
           else None)
        (combine (seq 0 (length hubs)) hubs).
  (** buffers.py:132-136 apply_context: buf[time_size:] = c *)
  Definition apply_hub (hubs : list hub) (T B : nat) (m : memory) (x : option (list V) * (nat * hub)) : memory :=
    match x with
    | (Some c, (k, h)) => write_block m (row_cell hubs T B k T h) c
    | (None, _) => m
    end.
  Definition apply_context (hubs : list hub) (T B : nat) (context : list (option (list V))) (m : memory) : memory :=
    fold_left (apply_hub hubs T B) (combine context (combine (seq 0 (length hubs)) hubs)) m.

  (** buffers.py:147-150 clear_backward_buffers *)
  Definition clear_backward_buffers (hubs : list hub) (T B : nat) (m : memory) : memory :=
    fold_left (fun m (kh : nat * hub) => let (k, h) := kh in
                 if h_bwd h then write_block m (hub_base hubs T B k) (repeat zero (hub_cells T B h)) else m)
              (combine (seq 0 (length hubs)) hubs) m.
End Mem.
