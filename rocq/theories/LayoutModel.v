(** Model of brainstorm/structure/layout.py: from layers to the layout. *)
From Coq Require Import String Ascii List Arith Bool.
From Verif Require Import PyBase UtilsModel HubModel.
Import ListNotations.
Open Scope string_scope.
Open Scope list_scope.
Open Scope nat_scope.

(** An outgoing connection (structure/architecture.py:17-19); output_name is
    the name of an output or '..internals.X' / '..parameters.X'. *)
Record lconn := mkConn { c_start : string; c_output : string; c_end : string; c_input : string }.

(** The part of a layer object that the layout depends on
    (layers/base_layer.py: name, in_shapes, out_shapes, parameter_shapes,
    internal_shapes, outgoing); the shapes are in the order of the dicts.
    Simplified: no buffer name starts with '@'. *)
Record layer := mkLayer {
  l_name : string;
  l_in : list (string * lstruct);
  l_out : list (string * lstruct);
  l_params : list (string * lstruct);
  l_int : list (string * lstruct);
  l_outgoing : list lconn
}.

Definition path3 (a b c : string) : string := String.concat "." [a; b; c].

(** get_normalized_path(...) with its exceptions as EPath *)
Definition npath (args : list string) : lres string :=
  match get_normalized_path args with PathOk s => LOk s | _ => LErr EPath end.

(** a, b, c = s.split('.', 2); None is the ValueError. *)
Definition split2 (s : string) : option (string * string * string) :=
  match split_dot s with
  | a :: b :: c :: r => Some (a, b, String.concat "." (c :: r))
  | _ => None
  end.

(** layout.py:300-302 back_buffer_name *)
Definition back_buffer_name (category : string) : option string :=
  if String.eqb category "parameters" then Some "gradients"
  else if String.eqb category "inputs" then Some "input_deltas"
  else if String.eqb category "outputs" then Some "output_deltas"
  else None.

(** layout.py:297-316 get_backward_connection *)
Definition get_backward_connection (start stop : string) (l : layer) : lres (string * string) :=
  match split2 start, split2 stop with
  | Some (start_layer, start_category, start_buffer), Some (stop_layer, stop_category, stop_buffer) =>
      match back_buffer_name stop_category with
      | None => LErr EKey
      | Some sc =>
          let new_end := path3 stop_layer sc stop_buffer in
          if String.eqb start_category "internals" then
            let dstart_buffer := ("d" ++ start_buffer)%string in
            if dmem dstart_buffer (l_int l)
            then LOk (path3 start_layer "internals" dstart_buffer, new_end)
            else LErr EKey
          else match back_buffer_name start_category with
               | None => LErr EKey
               | Some c => LOk (path3 start_layer c start_buffer, new_end)
               end
      end
  | _, _ => LErr EPath
  end.

(** Concatenate the results of a loop, stopping at the first exception. *)
Fixpoint collect {A B} (f : A -> lres (list B)) (l : list A) : lres (list B) :=
  match l with
  | [] => LOk []
  | x :: r => match f x with
              | LErr e => LErr e
              | LOk ys => match collect f r with LErr e => LErr e | LOk zs => LOk (ys ++ zs) end
              end
  end.

(** layout.py:321-331: the connections of one outgoing connection. *)
Definition con_connections (l : layer) (con : lconn) : lres (list (string * string)) :=
  match npath [c_start con; "outputs"; c_output con], npath [c_end con; "inputs"; c_input con] with
  | LOk start, LOk stop =>
      match get_backward_connection start stop l with
      | LOk b => LOk [(start, stop); b]
      | LErr e => LErr e
      end
  | LErr e, _ => LErr e
  | _, LErr e => LErr e
  end.
(** layout.py:334-342: connections to the implicit parameters and gradients. *)
Definition param_connections (l : layer) : lres (list (string * string)) :=
  collect (fun p =>
    match npath [l_name l; "parameters"; fst p], npath [l_name l; "gradients"; fst p] with
    | LOk s, LOk g => LOk [(s, "parameters"); (g, "gradients")]
    | LErr e, _ => LErr e
    | _, LErr e => LErr e
    end) (l_params l).
Definition pair_leb (a b : string * string) : bool :=
  if String.eqb (fst a) (fst b) then String.leb (snd a) (snd b) else String.leb (fst a) (fst b).
(** layout.py:319-344 get_connections *)
Definition get_connections (layers : list layer) : lres (list (string * string)) :=
  match collect (fun l => collect (con_connections l) (l_outgoing l)) layers with
  | LErr e => LErr e
  | LOk cs =>
      match collect param_connections layers with
      | LErr e => LErr e
      | LOk ps => LOk (isort pair_leb (cs ++ ps))
      end
  end.

(** layout.py:351-358 get_parameter_order, get_gradient_order *)
Definition get_order (category : string) (l : layer) : lres (list string) :=
  collect (fun p => match npath [l_name l; category; fst p] with
                    | LOk s => LOk [s] | LErr e => LErr e end) (l_params l).
Fixpoint disjoint_orders (fos : list (list string)) : bool :=
  match fos with
  | [] => true
  | fo :: r => forallb (fun other => forallb (fun s => negb (smem s other)) fo) r && disjoint_orders r
  end.
(** filter(None, orders) *)
Definition nonempty_orders (fos : list (list string)) : list (list string) :=
  filter (fun fo => match fo with [] => false | _ => true end) fos.
(** layout.py:193-205 get_forced_orders *)
Definition get_forced_orders (layers : list layer) : lres (list (list string)) :=
  match collect (fun l => match get_order "parameters" l with LOk o => LOk [o] | LErr e => LErr e end) layers with
  | LErr e => LErr e
  | LOk ps =>
      match collect (fun l => match get_order "gradients" l with LOk o => LOk [o] | LErr e => LErr e end) layers with
      | LErr e => LErr e
      | LOk gs =>
          let fos := nonempty_orders (ps ++ gs) in
          if disjoint_orders fos then LOk fos else LErr EOverlap
      end
  end.

(** layout.py:257, 264, 274: the copies of the shapes for the backward pass. *)
Definition backward_only (s : lstruct) : lstruct := mkStruct (ls_btype s) (ls_feat s) (ls_ctx s) true.
Definition in_category (l : layer) (category : string) (entries : list (string * lstruct))
  : list (string * lstruct) :=
  map (fun e => (path3 (l_name l) category (fst e), snd e)) entries.
Definition backward_entries (entries : list (string * lstruct)) : list (string * lstruct) :=
  map (fun e => (fst e, backward_only (snd e))) entries.
Definition sorted_entries (entries : list (string * lstruct)) : list (string * lstruct) :=
  isort (fun a b => String.leb (fst a) (fst b)) entries.
(** layout.py:226-283 get_layout_stub_for_layer: the arrays in the order of
    gather_array_nodes (layout.py:286-294), with their structures. *)
Definition layer_stub (l : layer) : list (string * lstruct) :=
  in_category l "inputs" (sorted_entries (l_in l)) ++
  in_category l "outputs" (l_out l) ++
  in_category l "parameters" (l_params l) ++
  in_category l "internals" (l_int l) ++
  in_category l "input_deltas" (backward_entries (sorted_entries (l_in l))) ++
  in_category l "output_deltas" (backward_entries (l_out l)) ++
  in_category l "gradients" (backward_entries (l_params l)).
(** layout.py:208-223 create_layout_stub, without the arrays 'parameters' and
    'gradients' (which have no shape yet).  Simplified: no layer is named
    'parameters' or 'gradients' (it would replace these entries). *)
Definition stub (layers : list layer) : list (string * lstruct) := flat_map layer_stub layers.

(** layout.py:178-188: one round of the loop in get_all_sources *)
Definition add_source (forced_orders : list (list string)) (acc : list node) (s : string) : list node :=
  match forced_orders with
  | [] => acc ++ [Single s]
  | _ => if smem s (flat_map node_flat acc) then acc
         else match find (smem s) forced_orders with
              | Some fo => acc ++ [Group fo]
              | None => acc ++ [Single s]
              end
  end.
(** layout.py:174-190 get_all_sources *)
Definition get_all_sources (forced_orders : list (list string)) (connections : list (string * string))
  (arrays : list string) : list node :=
  fold_left (add_source forced_orders)
    (filter (fun s => negb (smem s (map snd connections ++ ["parameters"; "gradients"])))
            ("parameters" :: "gradients" :: arrays)) [].

(** key=lambda x: (x.is_backward_only, x.btype) *)
Definition hub_leb (a b : hub) : bool :=
  match h_bwd a, h_bwd b with
  | false, true => true
  | true, false => false
  | _, _ => h_btype a <=? h_btype b
  end.

(** layout.py:162-171 layout_hubs: path -> (@hub, @slice) *)
Definition slices := dict (nat * (nat * nat)).
Definition layout_entries (hubs : list hub) : list (string * (nat * (nat * nat))) :=
  flat_map (fun kh => map (fun e => (fst e, (fst kh, snd e))) (get_indices (snd kh)))
           (combine (seq 0 (length hubs)) hubs).
Definition fill (entries : list (string * (nat * (nat * nat)))) (d : slices) : slices :=
  fold_left (fun d e => dset (fst e) (snd e) d) entries d.
(** layout.py:149-155 *)
Definition default_slice (name : string) (d : slices) : slices :=
  if dmem name d then d else dset name (0, (0, 0)) d.

(** layout.py:134-159 create_layout *)
Definition create_layout (layers : list layer) : lres (list hub * slices) :=
  match get_forced_orders layers with
  | LErr e => LErr e
  | LOk forced_orders =>
      match get_connections layers with
      | LErr e => LErr e
      | LOk connections =>
          let arrays := stub layers in
          let all_sources := get_all_sources forced_orders connections (map fst arrays) in
          match group_into_hubs all_sources forced_orders connections (fun s => dget s arrays) with
          | LErr e => LErr e
          | LOk hubs0 =>
              let hubs := isort hub_leb hubs0 in
              let entries := layout_entries hubs in
              if forallb (fun e => smem (fst e) ("parameters" :: "gradients" :: map fst arrays)) entries
              then LOk (hubs, default_slice "gradients" (default_slice "parameters" (fill entries [])))
              else LErr EKey
          end
      end
  end.
