(** Model of brainstorm/structure/layout.py: hubs, forward closure, grouping
    (the construction of the layout from layers is in LayoutModel.v). *)
From Coq Require Import String List Arith Bool.
From Verif Require Import PyBase UtilsModel.
Import ListNotations.
Open Scope string_scope.
Open Scope list_scope.
Open Scope nat_scope.

(** A source or sink in the merged connection list: a path (str) or a forced
    order (tuple of paths). *)
Inductive node := Single (s : string) | Group (l : list string).

Definition node_eq_dec (a b : node) : {a = b} + {a <> b}.
Proof. decide equality; [apply string_dec | apply (list_eq_dec string_dec)]. Defined.

Definition node_mem (x : node) (l : list node) : bool :=
  if in_dec node_eq_dec x l then true else false.

(** The paths of a node, in order (utils.flatten). *)
Definition node_flat (n : node) : list string :=
  match n with Single s => [s] | Group l => l end.
Definition node_nested (n : node) : nested string :=
  match n with Single s => Leaf s | Group l => Node (map (@Leaf string) l) end.

(** layout.py:361-373 merge_connections, the loop over forced_orders for one
    end of one connection ([start in fo] is false for a tuple). *)
Definition merge_node (forced_orders : list (list string)) (s : string) : node :=
  fold_left (fun n fo => match n with
                         | Single x => if smem x fo then Group fo else n
                         | Group _ => n
                         end) forced_orders (Single s).
Definition merge_connections (connections : list (string * string))
  (forced_orders : list (list string)) : list (node * node) :=
  map (fun c => (merge_node forced_orders (fst c), merge_node forced_orders (snd c))) connections.

(** {end for start, end in connections if start in source_set} *)
Definition ends_of (cns : list (node * node)) (source_set : list node) : list node :=
  nodup node_eq_dec (map snd (filter (fun c => node_mem (fst c) source_set) cns)).
(** {start for start, end in connections if end in sink_set} *)
Definition starts_of (cns : list (node * node)) (sink_set : list node) : list node :=
  nodup node_eq_dec (map fst (filter (fun c => node_mem (snd c) sink_set) cns)).

(** layout.py:416-426: the while loop (sets are duplicate-free lists; None is
    out of fuel). *)
Fixpoint closure_loop (fuel : nat) (cns : list (node * node)) (source_set sink_set : list node)
  : option (list node * list node) :=
  match fuel with
  | 0 => None
  | S f =>
      let new_source_set := starts_of cns sink_set in
      let new_sink_set := ends_of cns source_set in
      if (length source_set <? length new_source_set) || (length sink_set <? length new_sink_set)
      then closure_loop f cns new_source_set new_sink_set
      else Some (source_set, sink_set)
  end.
(** layout.py:390-427 get_forward_closure; the sets can grow at most
    2 * len(connections) + 1 times. *)
Definition get_forward_closure (n : node) (cns : list (node * node))
  : option (list node * list node) :=
  closure_loop (2 * length cns + 3) cns [n] (ends_of cns [n]).

(** The relevant part of a valid BufferStructure with non-negative feature
    dimensions (C54): the scaling prefix is given by the buffer type. *)
Record lstruct := mkStruct {
  ls_btype : nat;            (* 0: fixed, 1: 'B', 2: 'T', 'B' *)
  ls_feat : list nat;        (* feature_shape *)
  ls_ctx : nat;              (* context_size *)
  ls_bwd : bool              (* is_backward_only *)
}.
(** buffer_structure.py:155-157 *)
Definition ls_size (s : lstruct) : nat := fold_right Nat.mul 1 (ls_feat s).

Record hub := mkHub {
  h_sources : list string;         (* flat_sources, permuted *)
  h_sinks : list string;
  h_btype : nat;
  h_ctx : nat;
  h_table : list (list bool);      (* connection_table, permuted rows *)
  h_sizes : list nat;
  h_size : nat;
  h_bwd : bool                     (* is_backward_only *)
}.

Inductive lerror :=
| EAssertUniform      (* ensure_uniform, layout.py:20 *)
| EMixedSort          (* TypeError: sorted() of a mixture of str and tuple (Python 3) *)
| EKey                (* KeyError: get_by_path *)
| EFailedLayout       (* NetworkValidationError, layout.py:97 *)
| ERemove             (* ValueError: list.remove(x), layout.py:383 *)
| EFuel               (* not an exception: fuel of a loop exhausted *)
| EPath               (* exceptions of get_normalized_path / split *)
| EOverlap.           (* AssertionError, layout.py:203 *)
Inductive lres (A : Type) := LOk (a : A) | LErr (e : lerror).
Arguments LOk {A} _.
Arguments LErr {A} _.

(** Tuple comparison. *)
Fixpoint strings_leb (a b : list string) : bool :=
  match a, b with
  | [], _ => true
  | _ :: _, [] => false
  | x :: a', y :: b' => if String.eqb x y then strings_leb a' b' else String.leb x y
  end.
Definition node_leb (a b : node) : bool := strings_leb (node_flat a) (node_flat b).
Definition is_group (n : node) : bool := match n with Group _ => true | Single _ => false end.
(** sorted(nodes): None is the TypeError. *)
Definition sort_nodes (l : list node) : option (list node) :=
  if forallb is_group l || forallb (fun n => negb (is_group n)) l
  then Some (isort node_leb l) else None.

(** Names of single nodes. *)
Definition single_names (l : list node) : option (list string) :=
  if forallb (fun n => negb (is_group n)) l then Some (flat_map node_flat l) else None.

(** layout.py:63-80 set_up_connection_table (source and sink names are
    distinct, so .index finds the only occurrence). *)
Definition connection_table (sources sinks : list string) (connections : list (string * string))
  : list (list bool) :=
  map (fun s => map (fun t => existsb (fun c => String.eqb (fst c) s && String.eqb (snd c) t) connections)
                    sinks) sources.

(** All ways to remove one element, in order of its position. *)
Fixpoint selections {A} (l : list A) : list (A * list A) :=
  match l with
  | [] => []
  | x :: r => (x, r) :: map (fun p => (fst p, x :: snd p)) (selections r)
  end.
(** itertools.permutations, in its order; [n] is the length of the list. *)
Fixpoint perms_n {A} (n : nat) (l : list A) : list (list A) :=
  match n with
  | 0 => [[]]
  | S m => flat_map (fun p => map (cons (fst p)) (perms_n m (snd p))) (selections l)
  end.
Definition permutations {A} (l : list A) : list (list A) := perms_n (length l) l.

Definition column (table : list (list bool)) (j : nat) : list bool :=
  map (fun row => nth j row false) table.

(** np.abs(np.diff(padded)).sum() of one padded column. *)
Fixpoint changes (prev : bool) (l : list bool) : nat :=
  match l with
  | [] => if prev then 1 else 0
  | b :: r => (if Bool.eqb prev b then 0 else 1) + changes b r
  end.

(** layout.py:100-120 can_be_connected_with_single_buffer *)
Definition can_be_connected_with_single_buffer (ncols : nat) (table : list (list bool)) : bool :=
  forallb (fun j => changes false (column table j) <=? 2) (seq 0 ncols).

(** layout.py:82-98 permute_rows: the permutation found first. *)
Definition permute_rows (nesting : list (nested nat)) (ncols : nat) (table : list (list bool))
  : option (list nat) :=
  find (fun p => can_be_connected_with_single_buffer ncols (map (fun i => nth i table []) p))
       (map flatten (permutations nesting)).

(** layout.py:18-20 ensure_uniform *)
Definition uniform_nat (l : list nat) : option nat :=
  match l with [] => None | x :: r => if forallb (Nat.eqb x) r then Some x else None end.
Definition uniform_bool (l : list bool) : option bool :=
  match l with [] => None | x :: r => if forallb (Bool.eqb x) r then Some x else None end.

Fixpoint get_all {A B} (f : A -> option B) (l : list A) : option (list B) :=
  match l with
  | [] => Some []
  | x :: r => match f x, get_all f r with Some y, Some ys => Some (y :: ys) | _, _ => None end
  end.

Definition default_struct : lstruct := mkStruct 0 [] 0 false.

(** layout.py:16-40 Hub.create; [struct_of] is
    BufferStructure.from_layout(get_by_path(layout, .)). Simplified: a sink
    that is a tuple gives an error here (in Python when the layout is filled
    in). *)
Definition hub_create (source_set sink_set : list node) (struct_of : string -> option lstruct)
  (connections : list (string * string)) : lres hub :=
  match sort_nodes source_set with
  | None => LErr EMixedSort
  | Some sorted_sources =>
      let flat_sources := flat_map node_flat sorted_sources in
      let nesting := convert_to_nested_indices (map node_nested sorted_sources) in
      match get_all struct_of flat_sources with
      | None => LErr EKey
      | Some structs =>
          match uniform_nat (map ls_btype structs) with
          | None => LErr EAssertUniform
          | Some btype =>
              match single_names sink_set with
              | None => LErr EKey
              | Some sink_names =>
                  let sinks := isort String.leb sink_names in
                  let table := connection_table flat_sources sinks connections in
                  match permute_rows nesting (length sinks) table with
                  | None => LErr EFailedLayout
                  | Some perm =>
                      match uniform_bool (map (fun i => ls_bwd (nth i structs default_struct)) perm) with
                      | None => LErr EAssertUniform
                      | Some bwd =>
                          let sizes := map (fun i => ls_size (nth i structs default_struct)) perm in
                          LOk (mkHub (map (fun i => nth i flat_sources "") perm) sinks btype
                                 (fold_right Nat.max 0 (map ls_ctx structs))
                                 (map (fun i => nth i table []) perm)
                                 sizes (fold_right Nat.add 0 sizes) bwd)
                      end
                  end
              end
          end
      end
  end.

(** np.cumsum([0] + sizes)[i] *)
Definition offset (sizes : list nat) (i : nat) : nat := fold_right Nat.add 0 (firstn i sizes).

(** np.argmax of a column of zeros and ones. *)
Fixpoint first_true (l : list bool) : nat :=
  match l with
  | [] => 0
  | true :: _ => 0
  | false :: r => if existsb (fun b => b) r then S (first_true r) else 0
  end.

(** layout.py:122-131 get_indices *)
Definition source_indices (h : hub) : list (string * (nat * nat)) :=
  map (fun i => (nth i (h_sources h) "", (offset (h_sizes h) i, offset (h_sizes h) (S i))))
      (seq 0 (length (h_sources h))).
Definition sink_slice (h : hub) (i : nat) : nat * nat :=
  let col := column (h_table h) i in
  (offset (h_sizes h) (first_true col),
   offset (h_sizes h) (length (h_table h) - first_true (rev col))).
Definition sink_indices (h : hub) : list (string * (nat * nat)) :=
  map (fun i => (nth i (h_sinks h) "", sink_slice h i)) (seq 0 (length (h_sinks h))).
Definition get_indices (h : hub) : list (string * (nat * nat)) := source_indices h ++ sink_indices h.

(** list.remove(x): first occurrence, None is the ValueError. *)
Fixpoint remove_first (x : node) (l : list node) : option (list node) :=
  match l with
  | [] => None
  | y :: r => if node_eq_dec x y then Some r
              else match remove_first x r with Some r' => Some (y :: r') | None => None end
  end.
Fixpoint remove_each (xs l : list node) : option (list node) :=
  match xs with
  | [] => Some l
  | x :: r => match remove_first x l with Some l' => remove_each r l' | None => None end
  end.

(** layout.py:378-387: the while loop of group_into_hubs; every round removes
    at least one source, the fuel is the number of sources. *)
Fixpoint group_loop (fuel : nat) (remaining_sources : list node) (m_cons : list (node * node))
  (struct_of : string -> option lstruct) (connections : list (string * string)) : lres (list hub) :=
  match remaining_sources with
  | [] => LOk []
  | n :: _ =>
      match fuel with
      | 0 => LErr EFuel
      | S f =>
          match get_forward_closure n m_cons with
          | None => LErr EFuel
          | Some (source_set, sink_set) =>
              match remove_each source_set remaining_sources with
              | None => LErr ERemove
              | Some rest =>
                  match hub_create source_set sink_set struct_of connections with
                  | LErr e => LErr e
                  | LOk h =>
                      match group_loop f rest m_cons struct_of connections with
                      | LErr e => LErr e
                      | LOk hs => LOk (h :: hs)
                      end
                  end
              end
          end
      end
  end.
(** layout.py:376-387 group_into_hubs *)
Definition group_into_hubs (sources : list node) (forced_orders : list (list string))
  (connections : list (string * string)) (struct_of : string -> option lstruct) : lres (list hub) :=
  group_loop (length sources) sources (merge_connections connections forced_orders) struct_of connections.
