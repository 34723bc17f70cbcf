(** Property theorems C09 (grouping), C10 (layout of a hub), C11 (layout search). *)
From Coq Require Import String List Arith Bool Lia Permutation Relations.
From Verif Require Import PyBase PyFacts UtilsModel HubModel HubProofs.
Import ListNotations.
Open Scope string_scope.
Open Scope list_scope.
Open Scope nat_scope.

(** C09: the forward closure of a node always terminates with exactly the
    connected component of the node in the source-sink graph. *)
Theorem C09_closure : forall cns n,
  exists sources sinks, get_forward_closure n cns = Some (sources, sinks) /\
    NoDup sources /\ NoDup sinks /\
    (forall a, In a sources <-> clos_refl_trans node (fun a b => exists t, In (a, t) cns /\ In (b, t) cns) n a) /\
    (forall t, In t sinks <->
       exists a, clos_refl_trans node (fun a b => exists t, In (a, t) cns /\ In (b, t) cns) n a /\ In (a, t) cns).
Proof.
  intros cns n. destruct (forward_closure_spec cns n) as [s [k [E C]]]. exists s, k. split; [exact E | exact C].
Qed.
Print Assumptions C09_closure.

(** C09: the hubs partition the sources into connected components. *)
Theorem C09_partition : forall sources forced_orders connections struct_of hubs,
  group_into_hubs sources forced_orders connections struct_of = LOk hubs ->
  exists classes : list (list node * list node),
    Permutation (concat (map fst classes)) sources /\
    Forall (fun cl => exists n, component_of (merge_connections connections forced_orders) n (fst cl) (snd cl)) classes /\
    Forall2 (fun cl h =>
       (exists order, Permutation (fst cl) order /\ h_sources h = flat_map node_flat order) /\
       (forall t, In t (h_sinks h) <-> In (Single t) (snd cl))) classes hubs.
Proof.
  intros sources fos cns so hs H. destruct (group_loop_spec _ _ _ _ _ _ H) as [cls [P [F1 F2]]].
  exists cls. split; [exact P|]. split; [exact F1|].
  revert F2. apply Forall2_weaken. intros cl h Hc. destruct (hub_create_spec _ _ _ _ _ Hc) as [A [B _]]. auto.
Qed.
Print Assumptions C09_partition.

(** C09: grouping itself never fails (only the creation of a hub can): no
    source is missing when it is removed from the list, and the loops end. *)
Theorem C09_total : forall sources forced_orders connections struct_of e,
  NoDup sources ->
  (forall a t, In (a, t) connections -> In (merge_node forced_orders a) sources) ->
  group_into_hubs sources forced_orders connections struct_of = LErr e ->
  exists n src snk, In n sources /\
    component_of (merge_connections connections forced_orders) n src snk /\
    hub_create src snk struct_of connections = LErr e.
Proof.
  intros sources fos cns so e ND St H. apply (group_loop_total so cns _ (length sources)); [lia | exact ND | | exact H].
  intros a b Ha T. apply clos_rt_rtn1 in T. destruct T as [|b c [t [_ Hc]] _]; [assumption|].
  apply in_map_iff in Hc. destruct Hc as [[x y] [[= <- _] Hx]]. apply (St x y Hx).
Qed.
Print Assumptions C09_total.

(** C09: forced orders: each end of a connection is replaced by the forced
    order containing it (there is at most one, they do not overlap). *)
Theorem C09_merge : forall forced_orders s,
  (exists fo, merge_node forced_orders s = Group fo /\ In fo forced_orders /\ In s fo) \/
  (merge_node forced_orders s = Single s /\ forall fo, In fo forced_orders -> ~ In s fo).
Proof. exact merge_node_cases. Qed.
Print Assumptions C09_merge.

Definition ex_struct (sizes : list (string * nat)) (s : string) : option lstruct :=
  match dget s sizes with Some n => Some (mkStruct 2 [n] 0 false) | None => None end.
Definition ex_so := ex_struct [("a", 3); ("b", 2); ("c", 4); ("d", 5); ("e", 1)].
(** a->x, c->x, c->y, b->y, d->z, e unconnected: a c b must be reordered *)
Definition ex_cns := [("a", "x"); ("c", "x"); ("c", "y"); ("b", "y"); ("d", "z")].
Definition ex_sources := [Single "a"; Single "b"; Single "c"; Single "d"; Single "e"].

Example C09_example :
  match group_into_hubs ex_sources [] ex_cns ex_so with
  | LOk hs => map h_sources hs = [["a"; "c"; "b"]; ["d"]; ["e"]] /\ map h_sinks hs = [["x"; "y"]; ["z"]; []]
  | LErr _ => False
  end.
Proof. vm_compute. split; reflexivity. Qed.

(** C10: in every hub the sources occupy adjacent slices covering [0, size). *)
Theorem C10_sources : forall source_set sink_set struct_of connections h,
  hub_create source_set sink_set struct_of connections = LOk h ->
  exists start : nat -> nat,
    start 0 = 0 /\ start (length (h_sources h)) = h_size h /\
    length (source_indices h) = length (h_sources h) /\
    forall i s, nth_error (h_sources h) i = Some s ->
      exists st, struct_of s = Some st /\ start (S i) = start i + ls_size st /\
                 nth_error (source_indices h) i = Some (s, (start i, start (S i))).
Proof.
  intros ss ks so cns h H. apply hub_create_spec in H. exists (offset (h_sizes h)).
  split; [reflexivity|]. split; [eapply hub_size_offset; eauto|].
  split; [unfold source_indices; now rewrite map_length, seq_length|].
  intros i s Hi. destruct (source_slice_spec _ _ _ _ _ H i s Hi) as [H1 [st [H2 H3]]]. eauto.
Qed.
Print Assumptions C10_sources.

(** C10: so no two sources overlap and every cell belongs to a source. *)
Theorem C10_disjoint_cover : forall source_set sink_set struct_of connections h,
  hub_create source_set sink_set struct_of connections = LOk h ->
  forall pos, pos < h_size h ->
    exists i s sl, nth_error (source_indices h) i = Some (s, sl) /\ fst sl <= pos < snd sl /\
      forall j s' sl', nth_error (source_indices h) j = Some (s', sl') -> fst sl' <= pos < snd sl' -> j = i.
Proof.
  intros ss ks so cns h H pos Hp. apply hub_create_spec in H.
  rewrite <- (hub_size_offset _ _ _ _ _ H) in Hp.
  destruct (proj1 (offset_find (h_sizes h) 0 (length (h_sources h)) pos (Nat.le_0_l _))) as [i [Hi Ho]];
    [split; [rewrite offset_0; lia | assumption]|].
  assert (Hs := nth_error_nth' (h_sources h) "" (proj2 Hi)).
  destruct (source_slice_spec _ _ _ _ _ H i _ Hs) as [H1 _].
  exists i, (nth i (h_sources h) ""), (offset (h_sizes h) i, offset (h_sizes h) (S i)).
  split; [exact H1|]. split; [exact Ho|].
  intros j s' sl' Hj Hp'. assert (Lj : j < length (h_sources h)).
  { assert (j < length (source_indices h)) by (apply nth_error_Some; congruence).
    unfold source_indices in H0. now rewrite map_length, seq_length in H0. }
  assert (Hs' := nth_error_nth' (h_sources h) "" Lj).
  destruct (source_slice_spec _ _ _ _ _ H j _ Hs') as [H2 _]. rewrite H2 in Hj. injection Hj as <- <-.
  simpl in Hp'. eapply offset_unique; eauto.
Qed.
Print Assumptions C10_disjoint_cover.

(** C10: the slice of a sink consists of exactly the cells of the sources
    connected to it. *)
Theorem C10_sinks : forall source_set sink_set struct_of connections h,
  hub_create source_set sink_set struct_of connections = LOk h ->
  length (sink_indices h) = length (h_sinks h) /\
  forall j t, nth_error (h_sinks h) j = Some t ->
  (exists s, In s (h_sources h) /\ In (s, t) connections) ->
  exists sl, nth_error (sink_indices h) j = Some (t, sl) /\ fst sl <= snd sl <= h_size h /\
    forall pos, fst sl <= pos < snd sl <->
      exists i s sls, nth_error (source_indices h) i = Some (s, sls) /\ In (s, t) connections /\
                      fst sls <= pos < snd sls.
Proof.
  intros ss ks so cns h H. apply hub_create_spec in H.
  split; [unfold sink_indices; now rewrite map_length, seq_length|].
  intros j t Hj Hex. exists (sink_slice h j). split; [|split].
  - unfold sink_indices. rewrite nth_error_map.
    assert (Lj : j < length (h_sinks h)) by (apply nth_error_Some; congruence).
    rewrite (nth_error_nth' (seq 0 (length (h_sinks h))) 0) by (rewrite seq_length; lia).
    rewrite seq_nth by lia. simpl. now rewrite (nth_error_nth _ _ _ Hj).
  - destruct (sink_slice_block _ _ _ _ _ _ _ H Hj Hex) as [a [b [Hab [-> _]]]]. simpl.
    rewrite <- (hub_size_offset _ _ _ _ _ H). split; apply offset_mono; lia.
  - intros pos. rewrite (sink_slice_union _ _ _ _ _ _ _ H Hj Hex pos). split.
    + intros [i [s [H1 [H2 H3]]]]. destruct (source_slice_spec _ _ _ _ _ H i s H1) as [H4 _].
      exists i, s, (offset (h_sizes h) i, offset (h_sizes h) (S i)). auto.
    + intros [i [s [sls [H1 [H2 H3]]]]].
      assert (Li : i < length (h_sources h)).
      { assert (X : i < length (source_indices h)) by (apply nth_error_Some; congruence).
        unfold source_indices in X. now rewrite map_length, seq_length in X. }
      assert (Hs := nth_error_nth' (h_sources h) "" Li).
      destruct (source_slice_spec _ _ _ _ _ H i _ Hs) as [H4 _]. rewrite H4 in H1. injection H1 as <- <-.
      exists i, (nth i (h_sources h) ""). auto.
Qed.
Print Assumptions C10_sinks.

(** C10: a hub takes the common buffer type of its sources, its context is at
    least the context of each. *)
Theorem C10_attributes : forall source_set sink_set struct_of connections h,
  hub_create source_set sink_set struct_of connections = LOk h ->
  forall n s, In n source_set -> In s (node_flat n) ->
    exists st, struct_of s = Some st /\ ls_btype st = h_btype h /\ ls_ctx st <= h_ctx h /\ ls_bwd st = h_bwd h.
Proof.
  intros ss ks so cns h H n s Hn Hs. apply hub_create_spec in H.
  destruct H as [[order [P E]] [_ [_ [S _]]]].
  assert (X : In s (h_sources h)).
  { rewrite E. apply in_flat_map. exists n. split; [|assumption]. now apply (Permutation_in _ P). }
  apply In_nth_error in X. destruct X as [i Hi]. destruct (S i s Hi) as [st [H1 [_ H2]]]. eauto.
Qed.
Print Assumptions C10_attributes.

Example C10_example :
  match hub_create [Single "b"; Single "c"; Single "a"] [Single "y"; Single "x"] ex_so ex_cns with
  | LOk h => get_indices h = [("a", (0, 3)); ("c", (3, 7)); ("b", (7, 9)); ("x", (0, 7)); ("y", (3, 9))] /\ h_size h = 9
  | LErr _ => False
  end.
Proof. vm_compute. split; reflexivity. Qed.

(** C11: if the layout fails, then in every order of the (grouped) sources some
    sink's sources are not adjacent. *)
Theorem C11_failure : forall source_set sink_set struct_of connections,
  hub_create source_set sink_set struct_of connections = LErr EFailedLayout ->
  forall order, Permutation source_set order ->
  exists t, In (Single t) sink_set /\ ~ adjacent connections order t.
Proof. exact hub_create_failed. Qed.
Print Assumptions C11_failure.

(** C11: conversely, if some order makes the sources of every sink adjacent,
    a hub is created. *)
Theorem C11_success : forall source_set sink_set struct_of connections btype bwd order,
  same_kind source_set ->
  (forall t, In t sink_set -> is_group t = false) ->
  (exists n s, In n source_set /\ In s (node_flat n)) ->
  (forall n s, In n source_set -> In s (node_flat n) ->
     exists st, struct_of s = Some st /\ ls_btype st = btype /\ ls_bwd st = bwd) ->
  Permutation source_set order ->
  (forall t, In (Single t) sink_set -> adjacent connections order t) ->
  exists h, hub_create source_set sink_set struct_of connections = LOk h.
Proof. exact hub_create_total. Qed.
Print Assumptions C11_success.

(** C11: in the found layout every forced order is contiguous and in order,
    and every sink's sources are adjacent. *)
Theorem C11_forced_orders : forall source_set sink_set struct_of connections h,
  hub_create source_set sink_set struct_of connections = LOk h ->
  exists order, Permutation source_set order /\ h_sources h = flat_map node_flat order /\
    (forall g, In (Group g) source_set -> exists pre post, h_sources h = pre ++ g ++ post) /\
    forall t, In (Single t) sink_set -> adjacent connections order t.
Proof.
  intros ss ks so cns h H. apply hub_create_spec in H.
  destruct H as [[order [P E]] [Hk [_ [_ [_ [Lt [Tb Bl]]]]]]].
  exists order. split; [exact P|]. split; [exact E|]. split.
  - intros g Hg. apply (Permutation_in _ P) in Hg. apply in_split in Hg. destruct Hg as [l1 [l2 ->]].
    exists (flat_map node_flat l1), (flat_map node_flat l2). rewrite E, flat_map_app. reflexivity.
  - intros t Ht. apply Hk in Ht. apply In_nth_error in Ht. destruct Ht as [j Hj].
    destruct (Bl j) as [a [b [c Ec]]]; [apply nth_error_Some; congruence|].
    exists a, (a + b). intros i s Hi. rewrite <- E in Hi. rewrite <- (Tb i j s t Hi Hj), Ec. apply nth_block.
Qed.
Print Assumptions C11_forced_orders.

(** Three sources each pair of which shares a sink cannot be laid out. *)
Definition ex_triangle := [("a", "x"); ("b", "x"); ("b", "y"); ("c", "y"); ("a", "z"); ("c", "z")].
Example C11_example :
  hub_create [Single "a"; Single "b"; Single "c"] [Single "x"; Single "y"; Single "z"] ex_so ex_triangle
    = LErr EFailedLayout /\
  (exists h, hub_create [Group ["d"; "a"]; Group ["b"; "c"]] [Single "p"; Single "x"] ex_so
     [("d", "p"); ("a", "p"); ("b", "p"); ("c", "p"); ("c", "x"); ("d", "x")] = LOk h /\
     h_sources h = ["b"; "c"; "d"; "a"]).
Proof.
  split; [reflexivity|]. eexists. split; [vm_compute; reflexivity | reflexivity].
Qed.
